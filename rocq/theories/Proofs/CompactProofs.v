From Coq Require Import ZArith List Bool Lia Sorted.
From Verif.Base Require Import Res GoNum Grid.
From Verif.Model Require Import Heightfield Filter Dirs Compact.
From Verif.Spec Require Import HeightfieldSpec CompactSpec.
From Verif.Proofs Require Import HeightfieldProofs FilterProofs DirsProofs.
Import ListNotations.
Open Scope Z_scope.

Definition zspan := mkCSpan 0 0 0 0.

Fixpoint comp (col : column) : list CompactSpan :=
  match col with
  | [] => []
  | s :: next =>
      if negb (sarea s =? 0)
      then mkCSpan (smax s) 0 0 (Z.max 0 (Z.min 255 (ceilingOf next - smax s))) :: comp next
      else comp next
  end.
Definition compa (col : column) : list Z := map sarea (filter (fun s => negb (sarea s =? 0)) col).

Lemma comp_length : forall col, zlen (comp col) = walkables col.
Proof.
  unfold walkables. induction col as [|s col IH]; [reflexivity|]. cbn [comp filter].
  destruct (negb _); rewrite ?zlen_cons; lia.
Qed.
Lemma compa_length : forall col, zlen (compa col) = walkables col.
Proof. intros. unfold compa, walkables, zlen. now rewrite map_length. Qed.

Lemma clamp_spec : forall a lo hi, lo <= hi -> int32Clamp a lo hi = Z.max lo (Z.min hi a).
Proof.
  intros. unfold int32Clamp. rewrite Z.gtb_ltb. destruct (Z.ltb_spec a lo); [lia|]. destruct (Z.ltb_spec hi a); lia.
Qed.

Lemma repeat_S_app : forall {A} (x : A) n, repeat x (S n) = x :: repeat x n.
Proof. reflexivity. Qed.

Lemma get_app_head : forall {A} (l : list A) x k, get (l ++ x :: k) (zlen l) = Ok x.
Proof.
  intros. apply get_ok. unfold zlen. rewrite Nat2Z.id. split; [lia|].
  rewrite nth_error_app2, Nat.sub_diag by lia. reflexivity.
Qed.
Lemma set_app_head : forall {A} (l : list A) x k v, set (l ++ x :: k) (zlen l) v = Ok (l ++ v :: k).
Proof.
  intros. rewrite set_in_range.
  - unfold zlen. rewrite Nat2Z.id, upd_app_length. reflexivity.
  - rewrite zlen_app, zlen_cons. pose proof (zlen_nonneg l). pose proof (zlen_nonneg k). lia.
Qed.

Lemma compactCol_spec : forall col A B m cnt, col_ok col -> zlen A = zlen B ->
  walkables col <= Z.of_nat m -> zlen A + walkables col < 2147483648 ->
  compactCol col (A ++ repeat zspan m, B ++ repeat nullArea m, zlen A) cnt =
  Ok (A ++ comp col ++ repeat zspan (m - length (comp col)),
      B ++ compa col ++ repeat nullArea (m - length (comp col)), zlen A + walkables col,
      match walkables col with 0 => cnt | _ => u8 (cnt + walkables col) end).
Proof.
  induction col as [|s col IH]; intros A B m cnt Hc HAB Hm Hbig.
  - cbn [compactCol comp compa filter map app length walkables]. unfold walkables; cbn [filter zlen length].
    change (zlen (@nil Span)) with 0. rewrite Nat.sub_0_r, Z.add_0_r. reflexivity.
  - destruct (col_ok_cons _ _ Hc) as [[_ Hs] Hc'].
    cbn [compactCol]. unfold nullArea at 1. unfold comp, compa, walkables. cbn [filter]. fold comp.
    destruct (negb (sarea s =? 0)) eqn:Ea.
    + assert (walkables (s :: col) = 1 + walkables col) as Ew.
      { unfold walkables. cbn [filter]. rewrite Ea. apply zlen_cons. }
      rewrite Ew in *.
      assert (0 <= walkables col) by (unfold walkables; apply zlen_nonneg).
      destruct m as [|m]; [lia|]. rewrite !repeat_S_app, get_app_head. cbn [bind].
      rewrite set_app_head. cbn [bind]. rewrite HAB, set_app_head. cbn [bind].
      change (match col with [] => MAX_HEIGHT | n :: _ => smin n end) with (ceilingOf col).
      rewrite !clamp_spec by lia. rewrite (u16_id (Z.max 0 (Z.min 65535 (smax s)))) by (unfold is_u16; lia).
      rewrite (u8_id (Z.max 0 _)) by (unfold is_u8; lia).
      replace (Z.max 0 (Z.min 65535 (smax s))) with (smax s) by lia.
      set (sp := mkCSpan (smax s) _ _ _).
      rewrite u32_id by (unfold is_u32; pose proof (zlen_nonneg B); lia).
      replace (A ++ sp :: repeat zspan m) with ((A ++ [sp]) ++ repeat zspan m) by (rewrite <- app_assoc; reflexivity).
      replace (B ++ sarea s :: repeat nullArea m) with ((B ++ [sarea s]) ++ repeat nullArea m) by (rewrite <- app_assoc; reflexivity).
      replace (zlen B + 1) with (zlen (A ++ [sp])) by (rewrite zlen_snoc; lia).
      rewrite IH; try assumption.
      * cbn [length map]. rewrite Nat.sub_succ. rewrite <- !app_assoc. cbn [app].
        rewrite zlen_snoc, zlen_cons.
        fold (walkables col). unfold compa.
        f_equal. f_equal; [f_equal|].
        -- lia.
        -- destruct (1 + walkables col) eqn:E1; [lia| |lia]. rewrite <- E1.
           destruct (walkables col) eqn:E2; [reflexivity| |lia].
           unfold u8. rewrite Zplus_mod_idemp_l. f_equal. lia.
      * rewrite !zlen_snoc. lia.
      * lia.
      * rewrite zlen_snoc. lia.
    + assert (walkables (s :: col) = walkables col) as Ew.
      { unfold walkables. cbn [filter]. now rewrite Ea. }
      rewrite Ew in *. rewrite IH by assumption. reflexivity.
Qed.

(** Offsets of the columns in the span array. *)
Definition offs (cols : list column) (i : nat) : Z := zlen (concat (map comp (firstn i cols))).
Definition total (cols : list column) : Z := zlen (concat (map comp cols)).

Lemma offs_S : forall cols i c, nth_error cols i = Some c -> offs cols (S i) = offs cols i + walkables c.
Proof.
  intros cols i c H. unfold offs. rewrite (firstn_snoc cols i c H), map_app, concat_app, zlen_app.
  cbn [map concat]. rewrite app_nil_r, comp_length. reflexivity.
Qed.
Lemma offs_mono : forall cols i j, (i <= j)%nat -> offs cols i <= offs cols j.
Proof.
  intros cols i j H. unfold offs. rewrite <- (firstn_skipn i (firstn j cols)), firstn_firstn.
  rewrite Nat.min_l by lia. rewrite map_app, concat_app, zlen_app. pose proof (zlen_nonneg (concat (map comp (skipn i (firstn j cols))))). lia.
Qed.
Lemma offs_all : forall cols i, (length cols <= i)%nat -> offs cols i = total cols.
Proof. intros. unfold offs, total. now rewrite firstn_all2. Qed.
Lemma offs_0 : forall cols, offs cols 0 = 0.
Proof. reflexivity. Qed.
Lemma offs_le_total : forall cols i, offs cols i <= total cols.
Proof.
  intros. destruct (Nat.le_gt_cases i (length cols)).
  - rewrite <- (offs_all cols (length cols)) by lia. now apply offs_mono.
  - rewrite offs_all by lia. lia.
Qed.
Lemma walkables_nonneg : forall c, 0 <= walkables c.
Proof. intros. unfold walkables. apply zlen_nonneg. Qed.

(** Span count. *)
Lemma count_fold : forall col n,
  fold_left (fun n s => if negb (sarea s =? nullArea) then n + 1 else n) col n = n + walkables col.
Proof.
  unfold walkables, nullArea. induction col as [|s col IH]; intros n; cbn [fold_left filter].
  - rewrite zlen_nil. lia.
  - destruct (negb _); rewrite IH, ?zlen_cons; lia.
Qed.

Lemma spanCount_spec : forall hf, hf_shape hf -> GetHeightFieldSpanCount hf = Ok (total (hf_spans hf)).
Proof.
  intros hf (Hw & Hh & Hs & Hl). unfold GetHeightFieldSpanCount, sweep.
  destruct (foldM_inv (fun (n : Z) (xy : Z * Z) =>
      let* col := get (hf_spans hf) (cidx (hf_w hf) (fst xy) (snd xy)) in
      Ok (fold_left (fun n s => if negb (sarea s =? nullArea) then n + 1 else n) col n))
    (fun pre n => n = offs (hf_spans hf) (length pre)) (cells (hf_w hf) (hf_h hf)) 0) as (n & E & ->).
  - reflexivity.
  - intros pre [x y] post s E ->. destruct (cells_split _ _ _ _ _ _ Hw Hh E) as (Ec & Hx & Hy).
    cbn [fst snd]. rewrite Ec.
    pose proof (cidx_range _ _ _ _ Hx Hy) as Hr.
    destruct (get_in_range (hf_spans hf) (zlen pre)) as [c Hc]; [lia|].
    rewrite Hc. cbn [bind]. eexists. split; [reflexivity|]. rewrite count_fold, app_length, Nat.add_1_r.
    apply get_ok in Hc. destruct Hc as [_ Hc]. unfold zlen in Hc. rewrite Nat2Z.id in Hc.
    symmetry. now apply offs_S.
  - rewrite E. f_equal. apply offs_all. pose proof (cells_length _ _ Hw Hh). unfold zlen in *. lia.
Qed.

Definition cell_of (cols : list column) (i : nat) : CompactCell :=
  match nth_error cols i with
  | None | Some [] => mkCell 0 0
  | Some c => mkCell (offs cols i) (u8 (walkables c))
  end.

Lemma concat_firstn_S : forall {A} (f : column -> list A) cols i c, nth_error cols i = Some c ->
  concat (map f (firstn (S i) cols)) = concat (map f (firstn i cols)) ++ f c.
Proof.
  intros A f cols i c H. rewrite (firstn_snoc cols i c H), map_app, concat_app. cbn. now rewrite app_nil_r.
Qed.

Lemma total_split : forall {A} (f : column -> list A) (cols : list column) i c,
  nth_error cols i = Some c ->
  zlen (concat (map f cols)) = zlen (concat (map f (firstn i cols))) + zlen (f c) + zlen (concat (map f (skipn (S i) cols))).
Proof.
  intros A f cols i c H. rewrite <- (firstn_skipn (S i) cols) at 1.
  rewrite map_app, concat_app, zlen_app, (concat_firstn_S f cols i c H), zlen_app. reflexivity.
Qed.

Lemma offs_compa : forall cols i, zlen (concat (map compa (firstn i cols))) = offs cols i.
Proof.
  intros cols i. unfold offs. generalize (firstn i cols) as l. induction l as [|c l IH]; [reflexivity|].
  cbn [map concat]. rewrite !zlen_app, IH, comp_length, compa_length. reflexivity.
Qed.

Lemma compactFill_spec : forall hf, hf_shape hf -> heights_ok hf -> total (hf_spans hf) < 2147483648 ->
  exists cs, compactFill hf (repeat (mkCell 0 0) (Z.to_nat (hf_w hf * hf_h hf)),
      (repeat zspan (Z.to_nat (total (hf_spans hf))), repeat nullArea (Z.to_nat (total (hf_spans hf))), 0)) =
    Ok (cs, (concat (map comp (hf_spans hf)), concat (map compa (hf_spans hf)), total (hf_spans hf))) /\
    zlen cs = hf_w hf * hf_h hf /\
    forall i, Z.of_nat i < hf_w hf * hf_h hf -> nth_error cs i = Some (cell_of (hf_spans hf) i).
Proof.
  intros hf Hsh Hok Htot. pose proof Hsh as (Hw & Hh & Hs & Hl). unfold compactFill, sweep.
  set (cols := hf_spans hf) in *. set (T := total cols) in *.
  set (I := fun (pre : list (Z * Z)) (st : list CompactCell * (list CompactSpan * list Z * Z)) =>
    let k := length pre in
    snd st = (concat (map comp (firstn k cols)) ++ repeat zspan (Z.to_nat (T - offs cols k)),
              concat (map compa (firstn k cols)) ++ repeat nullArea (Z.to_nat (T - offs cols k)), offs cols k) /\
    zlen (fst st) = hf_w hf * hf_h hf /\
    (forall i, (i < k)%nat -> nth_error (fst st) i = Some (cell_of cols i)) /\
    (forall i, (k <= i)%nat -> Z.of_nat i < hf_w hf * hf_h hf -> nth_error (fst st) i = Some (mkCell 0 0))).
  match goal with |- context [foldM ?f ?l ?s] => destruct (foldM_inv f I l s) as (st & E & HI) end.
  - unfold I. cbn [fst snd length firstn map concat app]. rewrite offs_0, Z.sub_0_r.
    split; [reflexivity|]. split; [unfold zlen; rewrite repeat_length; nia|]. split; [lia|].
    intros i _ Hi. rewrite (nth_error_nth' _ (mkCell 0 0)) by (rewrite repeat_length; lia).
    f_equal. apply nth_repeat.
  - intros pre [x y] post [cs sai] E (I1 & I2 & I3 & I4).
    destruct (cells_split _ _ _ _ _ _ Hw Hh E) as (Ec & Hx & Hy).
    pose proof (cidx_range _ _ _ _ Hx Hy) as Hr.
    cbn [fst snd] in *. subst sai. rewrite Ec.
    set (k := length pre) in *. assert (zlen pre = Z.of_nat k) as Ek by reflexivity. rewrite Ek in *.
    destruct (get_in_range cols (Z.of_nat k)) as [c Hc]; [lia|].
    rewrite Hc. cbn [bind].
    apply get_ok in Hc. destruct Hc as [_ Hc]. rewrite Nat2Z.id in Hc.
    pose proof (offs_S cols k c Hc) as Eoff.
    assert (col_ok c) as Hcok.
    { intros z Hz. pose proof (col_at_in hf x y Hsh (conj Hx Hy)) as Hg. fold cols in Hg. rewrite Ec in Hg.
      apply get_ok in Hg. destruct Hg as [_ Hg]. rewrite Nat2Z.id, Hc in Hg.
      inversion Hg as [Eq]. rewrite Eq in Hz. specialize (Hok x y z Hz). lia. }
    assert (I (pre ++ [(x, y)]) (upd cs k (cell_of cols k),
       (concat (map comp (firstn (S k) cols)) ++ repeat zspan (Z.to_nat (T - offs cols (S k))),
        concat (map compa (firstn (S k) cols)) ++ repeat nullArea (Z.to_nat (T - offs cols (S k))), offs cols (S k)))) as HI'.
    { unfold I. rewrite app_length, Nat.add_1_r. fold k. cbn [fst snd].
      split; [reflexivity|]. split; [now rewrite zlen_upd|]. split.
      - intros i Hi. destruct (Nat.eq_dec i k) as [->|N].
        + apply nth_error_upd_eq. unfold zlen in I2. lia.
        + rewrite nth_error_upd_neq by assumption. apply I3. lia.
      - intros i Hi Hlt. rewrite nth_error_upd_neq by lia. apply I4; lia. }
    destruct c as [|s0 c0].
    + eexists. split; [reflexivity|].
      assert (cell_of cols k = mkCell 0 0) as Ecell by (unfold cell_of; now rewrite Hc).
      rewrite Ecell in HI'.
      rewrite upd_self in HI' by (apply I4; lia).
      rewrite !(concat_firstn_S _ cols k [] Hc) in HI'. cbn [comp compa filter map] in HI'. rewrite !app_nil_r in HI'.
      unfold walkables in Eoff. cbn [filter] in Eoff. rewrite zlen_nil, Z.add_0_r in Eoff. rewrite Eoff in HI'. exact HI'.
    + set (c := s0 :: c0) in *.
      pose proof (offs_le_total cols (S k)) as Hle. fold T in Hle.
      pose proof (walkables_nonneg c).
      pose proof (compactCol_spec c (concat (map comp (firstn k cols))) (concat (map compa (firstn k cols)))
        (Z.to_nat (T - offs cols k)) 0 Hcok) as Hcc.
      rewrite offs_compa in Hcc. fold (offs cols k) in Hcc.
      specialize (Hcc eq_refl ltac:(lia) ltac:(lia)).
      rewrite Hcc. cbn [bind].
      rewrite set_in_range by lia. cbn [bind]. rewrite Nat2Z.id. eexists. split; [reflexivity|].
      rewrite !(concat_firstn_S _ cols k c Hc), Eoff in HI'. rewrite <- !app_assoc in HI'.
      replace (Z.to_nat (T - (offs cols k + walkables c))) with (Z.to_nat (T - offs cols k) - length (comp c))%nat in HI'.
      2:{ pose proof (comp_length c) as El. unfold zlen in El. lia. }
      replace (match walkables c with 0 => 0 | _ => u8 (0 + walkables c) end) with (u8 (walkables c))
        by (destruct (walkables c); reflexivity).
      assert (cell_of cols k = mkCell (offs cols k) (u8 (walkables c))) as Ecell by (unfold cell_of; now rewrite Hc).
      rewrite Ecell in HI'. exact HI'.
  - destruct HI as (I1 & I2 & I3 & I4).
    pose proof (cells_length _ _ Hw Hh) as Hcl. unfold zlen in Hcl.
    assert (length (cells (hf_w hf) (hf_h hf)) = length cols) as El by (unfold zlen in Hl; fold cols in Hl; lia).
    rewrite El in *. rewrite firstn_all, (offs_all cols (length cols)) in I1 by lia. fold T in I1.
    rewrite Z.sub_diag in I1. cbn [Z.to_nat repeat] in I1. rewrite !app_nil_r in I1.
    exists (fst st). unfold zspan in *. rewrite E. rewrite <- I1. split; [f_equal; apply surjective_pairing|].
    split; [assumption|]. intros i Hi. apply I3. unfold zlen in *. lia.
Qed.

(** ** Connections *)

Definition yh (s : CompactSpan) : Z * Z * Z := (csY s, csReg s, csH s).

Lemma get_map : forall {A B} (f : A -> B) l i, get (map f l) i = match get l i with Ok a => Ok (f a) | Panic => Panic | Exit => Exit | NoFuel => NoFuel end.
Proof.
  intros. unfold get. destruct (i <? 0); [reflexivity|]. rewrite nth_error_map. destruct (nth_error l (Z.to_nat i)); reflexivity.
Qed.

Lemma findNeighbour_ext : forall wh climb sY sH base ks a b, map yh a = map yh b ->
  findNeighbour a wh climb sY sH base ks = findNeighbour b wh climb sY sH base ks.
Proof.
  intros wh climb sY sH base. induction ks as [|k ks IH]; intros a b E; [reflexivity|].
  cbn [findNeighbour]. pose proof (get_map yh a k) as Ga. pose proof (get_map yh b k) as Gb. rewrite E, Gb in Ga.
  destruct (get a k) as [x| | |], (get b k) as [y| | |]; try discriminate; cbn [bind]; auto.
  inversion Ga. rewrite H0, H2. rewrite (IH a b E). reflexivity.
Qed.

(** First acceptable neighbour. *)
Definition good (spans : list CompactSpan) wh climb sY sH base k : Prop :=
  exists ns, get spans k = Ok ns /\
   Z.min (sY + sH) (csY ns + csH ns) - Z.max sY (csY ns) >= wh /\ Z.abs (csY ns - sY) <= climb /\ 0 <= k - base <= 62.

Lemma findNeighbour_spec : forall spans wh climb sY sH base ks,
  (forall k, In k ks -> exists ns, get spans k = Ok ns /\ 0 <= csY ns < 65536) -> 0 <= sY < 65536 ->
  exists o, findNeighbour spans wh climb sY sH base ks = Ok o /\
   match o with
   | None => forall k, In k ks -> ~ good spans wh climb sY sH base k
   | Some l => exists pre post, ks = pre ++ (base + l) :: post /\ good spans wh climb sY sH base (base + l) /\
                 forall k, In k pre -> ~ good spans wh climb sY sH base k
   end.
Proof.
  intros spans wh climb sY sH base. induction ks as [|k ks IH]; intros Hin HsY.
  - exists None. split; [reflexivity|]. contradiction.
  - destruct (Hin k (or_introl eq_refl)) as (ns & Eg & Hns).
    destruct IH as (o & E & Ho); [intros k' Hk'; apply Hin; now right|assumption|].
    cbn [findNeighbour]. rewrite Eg. cbn [bind].
    rewrite iMax_max, iMin_min, iAbs_abs by lia. unfold MAX_LAYERS, notConnected.
    rewrite Z.geb_leb, Z.gtb_ltb.
    assert (~ good spans wh climb sY sH base k -> exists o0, findNeighbour spans wh climb sY sH base ks = Ok o0 /\
     match o0 with
     | None => forall k', In k' (k :: ks) -> ~ good spans wh climb sY sH base k'
     | Some l => exists pre post, k :: ks = pre ++ (base + l) :: post /\ good spans wh climb sY sH base (base + l) /\
                 forall k', In k' pre -> ~ good spans wh climb sY sH base k'
     end) as Hskip.
    { intros Hn. exists o. split; [assumption|]. destruct o as [l|].
      - destruct Ho as (pre & post & Ep & Hg & Hp). exists (k :: pre), post. split; [cbn; congruence|].
        split; [assumption|]. intros k' [<-|H]; auto.
      - intros k' [<-|H]; auto. }
    destruct (Z.leb_spec wh (Z.min (sY + sH) (csY ns + csH ns) - Z.max sY (csY ns))) as [L1|L1]; cbn [andb].
    2:{ apply Hskip. intros (ns' & Eg' & H1 & _). rewrite Eg in Eg'. inversion Eg'; subst. lia. }
    destruct (Z.leb_spec (Z.abs (csY ns - sY)) climb) as [L2|L2].
    2:{ apply Hskip. intros (ns' & Eg' & _ & H1 & _). rewrite Eg in Eg'. inversion Eg'; subst. lia. }
    destruct (Z.ltb_spec (k - base) 0) as [L3|L3]; cbn [orb].
    { apply Hskip. intros (ns' & _ & _ & _ & H1). lia. }
    destruct (Z.ltb_spec (63 - 1) (k - base)) as [L4|L4].
    { apply Hskip. intros (ns' & _ & _ & _ & H1). lia. }
    exists (Some (k - base)). split; [reflexivity|]. exists [], ks.
    replace (base + (k - base)) with k by lia. split; [reflexivity|]. split; [|contradiction].
    exists ns. repeat split; try lia. assumption.
Qed.

Definition dirZ (d : nat) := Z.of_nat d.

(** Connection of span [j] (of cell (x, y)) in direction [d], from floors and clearances only. *)
Definition target (chf : CompactHeightfield) (x y j : Z) (d : nat) : Z :=
  let nx := x + fst (dir_step d) in
  let ny := y + snd (dir_step d) in
  if (nx <? 0) || (ny <? 0) || (nx >=? chf_w chf) || (ny >=? chf_h chf) then 63
  else match get (chf_spans chf) j, get (chf_cells chf) (cidx (chf_w chf) nx ny) with
       | Ok s, Ok nc =>
           match findNeighbour (chf_spans chf) (chf_wh chf) (chf_climb chf) (csY s) (csH s) (cIndex nc)
                   (krange (cIndex nc) (cCount nc)) with
           | Ok (Some l) => l
           | _ => 63
           end
       | _, _ => 63
       end.

(** Well-formed compact heightfield, before connections. *)
Record chf_ok (chf : CompactHeightfield) : Prop := {
  co_w : 0 <= chf_w chf; co_h : 0 <= chf_h chf;
  co_cells : zlen (chf_cells chf) = chf_w chf * chf_h chf;
  co_range : forall x y c, 0 <= x < chf_w chf -> 0 <= y < chf_h chf ->
     get (chf_cells chf) (cidx (chf_w chf) x y) = Ok c ->
     0 <= cIndex c /\ 0 <= cCount c /\ cIndex c + cCount c <= zlen (chf_spans chf);
  co_y : forall j s, get (chf_spans chf) j = Ok s -> 0 <= csY s < 65536 }.

Lemma in_krange : forall a n k, In k (krange a n) <-> a <= k < a + n.
Proof.
  intros a n k. unfold krange. rewrite in_map_iff. split.
  - intros (i & <- & H). apply in_zseq in H. lia.
  - intros H. exists (k - a). split; [lia|]. apply in_zseq. lia.
Qed.

Lemma set_con_fields : forall con d i, 0 <= d < 4 -> 0 <= i < 64 -> GetCon con d = 0 ->
  GetCon (SetCon con d 63) d = 63 /\
  GetCon (SetCon (SetCon con d 63) d i) d = i /\
  (forall d', 0 <= d' < 4 -> d' <> d -> GetCon (SetCon con d 63) d' = GetCon con d' /\
      GetCon (SetCon (SetCon con d 63) d i) d' = GetCon con d').
Proof.
  intros con d i Hd Hi H0.
  assert (GetCon (SetCon con d 63) d = 63) as E1.
  { apply SetCon_correct_iff; try lia. rewrite H0. reflexivity. }
  split; [assumption|]. split.
  - apply SetCon_correct_iff; try lia. rewrite E1. apply Z.bits_inj'. intros n Hn.
    rewrite Z.lor_spec, bits63 by assumption. destruct (Z.ltb_spec n 6); [reflexivity|].
    apply (Bits.testbit_high 6); cbn; lia.
  - intros d' Hd' N. rewrite !GetCon_SetCon by assumption.
    destruct (Z.eqb_spec d' d); [contradiction|]. auto.
Qed.

Lemma upd_nth_map : forall {A B} (f : A -> B) l j s s', get l j = Ok s -> f s' = f s ->
  map f (upd l (Z.to_nat j) s') = map f l.
Proof.
  intros A B f l j s s' H E. rewrite map_upd, E. apply upd_self. rewrite nth_error_map.
  apply get_ok in H. destruct H as [_ ->]. reflexivity.
Qed.

(** One direction of one span. *)
Lemma connectDir_spec : forall chf x y j spans s d, chf_ok chf ->
  0 <= x < chf_w chf -> 0 <= y < chf_h chf -> (d < 4)%nat ->
  map yh spans = map yh (chf_spans chf) -> get spans j = Ok s ->
  GetCon (csCon s) (Z.of_nat d) = 0 ->
  exists con, connectDir chf x y j spans (Z.of_nat d) = Ok (upd spans (Z.to_nat j) (mkCSpan (csY s) (csReg s) con (csH s))) /\
    GetCon con (Z.of_nat d) = target chf x y j d /\
    forall d', 0 <= d' < 4 -> d' <> Z.of_nat d -> GetCon con d' = GetCon (csCon s) d'.
Proof.
  intros chf x y j spans s d Hok Hx Hy Hd Hyh Hg H0.
  assert (GetDirOffsetX (Z.of_nat d) = Ok (fst (dir_step d)) /\ GetDirOffsetY (Z.of_nat d) = Ok (snd (dir_step d))) as [Ex Ey].
  { destruct d as [|[|[|[|d]]]]; try lia; split; reflexivity. }
  unfold connectDir. rewrite Hg. cbn [bind].
  pose proof (get_range _ _ _ Hg) as Hr.
  rewrite set_in_range by assumption. cbn [bind]. rewrite Ex, Ey. cbn [bind csY csH csReg csCon].
  unfold target. set (nx := x + fst (dir_step d)). set (ny := y + snd (dir_step d)).
  assert (exists s0, get (chf_spans chf) j = Ok s0 /\ yh s0 = yh s) as (s0 & Hg0 & Es0).
  { pose proof (get_map yh spans j) as G. pose proof (get_map yh (chf_spans chf) j) as G'.
    rewrite <- Hyh, G, Hg in G'. destruct (get (chf_spans chf) j) as [s0| | |]; try discriminate.
    exists s0. split; [reflexivity|congruence]. }
  assert (csY s0 = csY s /\ csH s0 = csH s) as [EY EH] by (unfold yh in Es0; split; congruence).
  destruct ((nx <? 0) || (ny <? 0) || (nx >=? chf_w chf) || (ny >=? chf_h chf)) eqn:EO.
  - destruct (set_con_fields (csCon s) (Z.of_nat d) 0 ltac:(lia) ltac:(lia) H0) as (F1 & _ & F3).
    eexists. split; [reflexivity|]. split; [assumption|]. intros d' Hd' N. apply F3; assumption.
  - rewrite !orb_false_iff, !Z.ltb_ge, !Z.geb_leb, !Z.leb_gt in EO.
    assert (0 <= nx < chf_w chf) as Hnx by lia. assert (0 <= ny < chf_h chf) as Hny by lia.
    pose proof (cidx_range _ _ _ _ Hnx Hny) as Hcr.
    destruct (get_in_range (chf_cells chf) (cidx (chf_w chf) nx ny)) as [nc Hnc].
    { rewrite (co_cells chf Hok). lia. }
    rewrite Hnc. cbn [bind].
    rewrite (findNeighbour_ext _ _ _ _ _ _ _ (chf_spans chf)).
    2:{ rewrite (upd_nth_map yh _ j s) by (assumption || reflexivity). assumption. }
    destruct (co_range chf Hok nx ny nc Hnx Hny Hnc) as (R1 & R2 & R3).
    destruct (findNeighbour_spec (chf_spans chf) (chf_wh chf) (chf_climb chf) (csY s) (csH s) (cIndex nc)
       (krange (cIndex nc) (cCount nc))) as (o & Eo & Ho).
    { intros k Hk. apply in_krange in Hk. destruct (get_in_range (chf_spans chf) k) as [ns Hns]; [lia|].
      exists ns. split; [assumption|]. apply (co_y chf Hok k ns Hns). }
    { rewrite <- EY. apply (co_y chf Hok j s0 Hg0). }
    rewrite Hg0, EY, EH, Eo. cbn [bind].
    destruct o as [l|].
    + destruct Ho as (pre & post & _ & (ns & _ & _ & _ & Hl) & _).
      destruct (set_con_fields (csCon s) (Z.of_nat d) l ltac:(lia) ltac:(lia) H0) as (_ & F2 & F3).
      rewrite set_in_range by now rewrite zlen_upd. rewrite upd_upd.
      eexists. split; [reflexivity|]. split; [assumption|]. intros d' Hd' N. apply F3; assumption.
    + destruct (set_con_fields (csCon s) (Z.of_nat d) 0 ltac:(lia) ltac:(lia) H0) as (F1 & _ & F3).
      eexists. split; [reflexivity|]. split; [assumption|]. intros d' Hd' N. apply F3; assumption.
Qed.

Lemma connect4_spec : forall chf x y j spans s, chf_ok chf ->
  0 <= x < chf_w chf -> 0 <= y < chf_h chf ->
  map yh spans = map yh (chf_spans chf) -> get spans j = Ok s -> csCon s = 0 ->
  exists con, foldM (connectDir chf x y j) [0; 1; 2; 3] spans =
      Ok (upd spans (Z.to_nat j) (mkCSpan (csY s) (csReg s) con (csH s))) /\
    forall d, (d < 4)%nat -> GetCon con (Z.of_nat d) = target chf x y j d.
Proof.
  intros chf x y j spans s Hok Hx Hy Hyh Hg H0.
  assert (forall d, 0 <= d < 4 -> GetCon (csCon s) d = 0) as Z0.
  { intros d _. rewrite H0. unfold GetCon. now rewrite Z.shiftr_0_l. }
  pose proof (get_range _ _ _ Hg) as Hr.
  assert (forall con, get (upd spans (Z.to_nat j) (mkCSpan (csY s) (csReg s) con (csH s))) j = Ok (mkCSpan (csY s) (csReg s) con (csH s))) as Gu.
  { intros con. rewrite get_upd, Z.eqb_refl by lia. destruct (Z.ltb_spec j (zlen spans)); [reflexivity|lia]. }
  assert (forall con, map yh (upd spans (Z.to_nat j) (mkCSpan (csY s) (csReg s) con (csH s))) = map yh (chf_spans chf)) as Mu.
  { intros con. rewrite (upd_nth_map yh _ j s) by (assumption || reflexivity). assumption. }
  destruct (connectDir_spec chf x y j spans s 0 Hok Hx Hy ltac:(lia) Hyh Hg) as (c0 & E0 & G0 & O0); [apply Z0; lia|].
  destruct (connectDir_spec chf x y j _ _ 1 Hok Hx Hy ltac:(lia) (Mu c0) (Gu c0)) as (c1 & E1 & G1 & O1).
  { cbn [csCon]. rewrite O0 by lia. apply Z0. lia. }
  destruct (connectDir_spec chf x y j _ _ 2 Hok Hx Hy ltac:(lia) (Mu c1) (Gu c1)) as (c2 & E2 & G2 & O2).
  { cbn [csCon] in *. rewrite O1, O0 by lia. apply Z0. lia. }
  { rewrite upd_upd in E1. destruct (connectDir_spec chf x y j _ _ 3 Hok Hx Hy ltac:(lia) (Mu c2) (Gu c2)) as (c3 & E3 & G3 & O3).
    { cbn [csCon] in *. rewrite O2, O1, O0 by lia. apply Z0. lia. }
    rewrite upd_upd in E2, E3. cbn [csY csReg csH csCon] in *.
    change (Z.of_nat 0) with 0 in *. change (Z.of_nat 1) with 1 in *. change (Z.of_nat 2) with 2 in *. change (Z.of_nat 3) with 3 in *.
    exists c3. cbn [foldM]. rewrite E0; cbn [bind]. rewrite E1; cbn [bind]. rewrite E2; cbn [bind]. rewrite E3; cbn [bind].
    split; [reflexivity|]. intros d Hd. destruct d as [|[|[|[|d]]]]; [| | | |lia].
    - change (Z.of_nat 0) with 0. rewrite O3, O2, O1 by lia. assumption.
    - change (Z.of_nat 1) with 1. rewrite O3, O2 by lia. assumption.
    - change (Z.of_nat 2) with 2. rewrite O3 by lia. assumption.
    - assumption. }
Qed.

Lemma krange_split : forall a n pre i post, krange a n = pre ++ i :: post -> i = a + zlen pre /\ zlen pre < n.
Proof.
  intros a n pre i post E. unfold krange in E.
  assert (nth_error (map (fun i => a + i) (zseq (Z.to_nat n))) (length pre) = Some i) as H.
  { rewrite E, nth_error_app2, Nat.sub_diag by lia. reflexivity. }
  assert (length pre < Z.to_nat n)%nat as L.
  { rewrite <- (zseq_length (Z.to_nat n)), <- (map_length (fun i => a + i) (zseq (Z.to_nat n))). apply nth_error_Some. congruence. }
  split; [|unfold zlen; lia]. unfold zseq in H. rewrite !nth_error_map in H.
  rewrite (nth_error_nth' _ 0%nat) in H by (rewrite seq_length; lia).
  rewrite seq_nth in H by assumption. cbn [option_map Nat.add] in H. unfold zlen. congruence.
Qed.
Lemma krange_length : forall a n, 0 <= n -> zlen (krange a n) = n.
Proof. intros. unfold krange, zlen. rewrite map_length, zseq_length. lia. Qed.

(** Layout of the cells after the fill. *)
Definition laid_out (chf : CompactHeightfield) (cols : list column) : Prop :=
  chf_spans chf = concat (map comp cols) /\
  zlen cols = chf_w chf * chf_h chf /\
  zlen (chf_cells chf) = chf_w chf * chf_h chf /\
  (forall i, Z.of_nat i < chf_w chf * chf_h chf -> nth_error (chf_cells chf) i = Some (cell_of cols i)) /\
  (forall c, In c cols -> walkables c <= 255) /\ (forall c, In c cols -> col_ok c).

Lemma cell_of_cases : forall cols i, (forall c, In c cols -> walkables c <= 255) ->
  (cCount (cell_of cols i) = 0 /\ (forall c, nth_error cols i = Some c -> walkables c = 0)) \/
  (exists c, nth_error cols i = Some c /\ cIndex (cell_of cols i) = offs cols i /\ cCount (cell_of cols i) = walkables c).
Proof.
  intros cols i H. unfold cell_of. destruct (nth_error cols i) as [c|] eqn:E.
  - destruct c as [|s c].
    + left. split; [reflexivity|]. intros c Ec. inversion Ec. reflexivity.
    + right. exists (s :: c). cbn [cIndex cCount]. split; [reflexivity|]. split; [reflexivity|].
      apply u8_id. apply nth_error_In in E. specialize (H _ E). pose proof (walkables_nonneg (s :: c)). unfold is_u8. lia.
  - left. split; [reflexivity|]. congruence.
Qed.

Lemma comp_y : forall col s, col_ok col -> In s (comp col) -> 0 <= csY s < 65536 /\ csCon s = 0 /\ csReg s = 0 /\ 0 <= csH s <= 255.
Proof.
  induction col as [|c col IH]; intros s Hc Hs; [contradiction|].
  destruct (col_ok_cons _ _ Hc) as [[_ Hcs] Hc']. cbn [comp] in Hs. destruct (negb _).
  - destruct Hs as [<-|Hs]; [cbn; lia|auto].
  - auto.
Qed.

Lemma concat_comp_y : forall cols j s, (forall c, In c cols -> col_ok c) ->
  get (concat (map comp cols)) j = Ok s -> 0 <= csY s < 65536 /\ csCon s = 0 /\ csReg s = 0 /\ 0 <= csH s <= 255.
Proof.
  intros cols j s Hok H. apply get_ok in H. destruct H as [_ H]. apply nth_error_In in H.
  apply in_concat in H. destruct H as (l & Hl & Hs). apply in_map_iff in Hl. destruct Hl as (c & <- & Hc).
  apply (comp_y c); auto.
Qed.

Lemma laid_out_ok : forall chf cols, 0 <= chf_w chf -> 0 <= chf_h chf -> laid_out chf cols -> chf_ok chf.
Proof.
  intros chf cols Hw Hh (L1 & L2 & L3 & L4 & L5 & L6). constructor; auto.
  - intros x y c Hx Hy Hg. pose proof (cidx_range _ _ _ _ Hx Hy) as Hr.
    apply get_ok in Hg. destruct Hg as [_ Hg]. rewrite L4 in Hg by lia. inversion Hg; subst c.
    set (i := Z.to_nat (cidx (chf_w chf) x y)).
    pose proof (walkables_nonneg).
    unfold cell_of. destruct (nth_error cols i) as [c|] eqn:E; [|cbn; pose proof (zlen_nonneg (chf_spans chf)); lia].
    destruct c as [|s c]; [cbn; pose proof (zlen_nonneg (chf_spans chf)); lia|].
    cbn [cIndex cCount]. rewrite u8_id.
    2:{ apply nth_error_In in E. specialize (L5 _ E). specialize (H (s :: c)). unfold is_u8. lia. }
    pose proof (offs_S cols i _ E) as E1. pose proof (offs_le_total cols (S i)) as E2.
    rewrite L1. fold (total cols). specialize (H (s :: c)).
    assert (0 <= offs cols i) by (unfold offs; apply zlen_nonneg). lia.
  - intros j s Hg. rewrite L1 in Hg. apply (concat_comp_y cols j s); auto.
Qed.

Definition done (chf : CompactHeightfield) (spans : list CompactSpan) (x y j : Z) : Prop :=
  exists s, get spans j = Ok s /\ forall d, (d < 4)%nat -> GetCon (csCon s) (Z.of_nat d) = target chf x y j d.

Lemma connectCell_spec : forall chf x y a n spans, chf_ok chf ->
  0 <= x < chf_w chf -> 0 <= y < chf_h chf -> 0 <= a -> 0 <= n -> a + n <= zlen spans ->
  map yh spans = map yh (chf_spans chf) ->
  (forall j s, a <= j -> get spans j = Ok s -> csCon s = 0) ->
  exists spans', foldM (fun spans i => foldM (connectDir chf x y i) [0; 1; 2; 3] spans) (krange a n) spans = Ok spans' /\
    map yh spans' = map yh (chf_spans chf) /\
    (forall j, j < a -> get spans' j = get spans j) /\
    (forall j s, a + n <= j -> get spans' j = Ok s -> csCon s = 0) /\
    (forall j, a <= j < a + n -> done chf spans' x y j).
Proof.
  intros chf x y a n spans Hok Hx Hy Ha Hn Hlen Hyh Hcon.
  destruct (foldM_inv (fun spans i => foldM (connectDir chf x y i) [0; 1; 2; 3] spans)
    (fun pre sp => map yh sp = map yh (chf_spans chf) /\ zlen sp = zlen spans /\
      (forall j, j < a -> get sp j = get spans j) /\
      (forall j s, a + zlen pre <= j -> get sp j = Ok s -> csCon s = 0) /\
      (forall j, a <= j < a + zlen pre -> done chf sp x y j)) (krange a n) spans) as (sp & E & I1 & _ & I2 & I3 & I4).
  - split; [assumption|]. split; [reflexivity|]. split; [reflexivity|]. split.
    + intros j s Hj. change (zlen (@nil Z)) with 0 in Hj. apply Hcon. lia.
    + intros j Hj. change (zlen (@nil Z)) with 0 in Hj. lia.
  - intros pre i post sp E (I1 & Il & I2 & I3 & I4). apply krange_split in E. destruct E as [-> Lp].
    pose proof (zlen_nonneg pre).
    destruct (get_in_range sp (a + zlen pre)) as [s Hs]; [lia|].
    assert (csCon s = 0) as Hc0 by (apply (I3 (a + zlen pre)); [lia|assumption]).
    destruct (connect4_spec chf x y (a + zlen pre) sp s Hok Hx Hy I1 Hs Hc0) as (con & E & Hcd).
    eexists. split; [exact E|].
    split. { rewrite (upd_nth_map yh _ _ s) by (assumption || reflexivity). assumption. }
    split. { now rewrite zlen_upd. }
    split. { intros j Hj. destruct (Z.lt_ge_cases j 0).
      - unfold get. destruct (Z.ltb_spec j 0); [reflexivity|lia].
      - rewrite get_upd by lia. destruct (Z.eqb_spec j (a + zlen pre)); [lia|]. cbn [andb]. apply I2. lia. }
    rewrite zlen_snoc. split.
    + intros j s0 Hj. rewrite get_upd by lia. destruct (Z.eqb_spec j (a + zlen pre)); [lia|]. cbn [andb]. apply I3. lia.
    + intros j Hj. unfold done. rewrite get_upd by lia. destruct (Z.eqb_spec j (a + zlen pre)) as [->|N]; cbn [andb].
      * destruct (Z.ltb_spec (a + zlen pre) (zlen sp)); [|lia]. eexists. split; [reflexivity|]. exact Hcd.
      * apply I4. lia.
  - exists sp. rewrite krange_length in I3, I4 by assumption. auto 10.
Qed.

Lemma compactConnect_spec : forall chf cols, 0 <= chf_w chf -> 0 <= chf_h chf -> laid_out chf cols ->
  exists spans', compactConnect chf = Ok spans' /\ map yh spans' = map yh (chf_spans chf) /\
    forall x y c j, 0 <= x < chf_w chf -> 0 <= y < chf_h chf ->
      get (chf_cells chf) (cidx (chf_w chf) x y) = Ok c -> cIndex c <= j < cIndex c + cCount c ->
      done chf spans' x y j.
Proof.
  intros chf cols Hw Hh HL. pose proof (laid_out_ok chf cols Hw Hh HL) as Hok.
  destruct HL as (L1 & L2 & L3 & L4 & L5 & L6). unfold compactConnect, sweep.
  set (f := fun (s : list CompactSpan) (xy : Z * Z) =>
     let* c := get (chf_cells chf) (cidx (chf_w chf) (fst xy) (snd xy)) in
     foldM (fun spans i => foldM (connectDir chf (fst xy) (snd xy) i) [0; 1; 2; 3] spans)
      (krange (cIndex c) (cCount c)) s).
  set (I := fun (pre : list (Z * Z)) sp =>
      map yh sp = map yh (chf_spans chf) /\
      (forall j s, offs cols (length pre) <= j -> get sp j = Ok s -> csCon s = 0) /\
      (forall x y c j, 0 <= x < chf_w chf -> 0 <= y < chf_h chf -> cidx (chf_w chf) x y < zlen pre ->
        get (chf_cells chf) (cidx (chf_w chf) x y) = Ok c -> cIndex c <= j < cIndex c + cCount c ->
        done chf sp x y j)).
  destruct (foldM_inv f I (cells (chf_w chf) (chf_h chf)) (chf_spans chf)) as (sp & E & I1 & _ & I3).
  - split; [reflexivity|]. split.
    + intros j s _ Hg. rewrite L1 in Hg. apply (concat_comp_y cols j s L6 Hg).
    + intros x y c j Hx Hy Hc. change (zlen (@nil (Z * Z))) with 0 in Hc. pose proof (cidx_range _ _ _ _ Hx Hy). lia.
  - intros pre [x y] post sp E (I1 & I2 & I3). destruct (cells_split _ _ _ _ _ _ Hw Hh E) as (Ec & Hx & Hy).
    pose proof (cidx_range _ _ _ _ Hx Hy) as Hr. unfold f. cbn [fst snd].
    destruct (get_in_range (chf_cells chf) (cidx (chf_w chf) x y)) as [c Hc]; [lia|].
    rewrite Hc. cbn [bind].
    destruct (co_range chf Hok x y c Hx Hy Hc) as (R1 & R2 & R3).
    set (k := length pre) in *. assert (zlen pre = Z.of_nat k) as Ek by reflexivity.
    assert (c = cell_of cols k) as Ecell.
    { apply get_ok in Hc. destruct Hc as [_ Hc]. rewrite Ec, Ek, Nat2Z.id, L4 in Hc by lia. congruence. }
    assert (zlen sp = zlen (chf_spans chf)) as Hlen.
    { unfold zlen. rewrite <- (map_length yh sp), I1, map_length. reflexivity. }
    destruct (nth_error_in_range cols k) as [col Hcol]; [unfold zlen in L2; lia|].
    pose proof (offs_S cols k col Hcol) as Eoff.
    (* the spans of this cell are [offs k, offs (S k)) *)
    assert (exists sp', foldM (fun spans i => foldM (connectDir chf x y i) [0; 1; 2; 3] spans) (krange (cIndex c) (cCount c)) sp = Ok sp' /\
      map yh sp' = map yh (chf_spans chf) /\
      (forall j, j < offs cols k -> get sp' j = get sp j) /\
      (forall j s, offs cols (S k) <= j -> get sp' j = Ok s -> csCon s = 0) /\
      (forall j, cIndex c <= j < cIndex c + cCount c -> done chf sp' x y j)) as (sp' & E' & J1 & J2 & J3 & J4).
    { destruct (cell_of_cases cols k L5) as [[C1 C2]|(col' & C0 & C1 & C2)].
      - rewrite Ecell, C1. exists sp. split; [reflexivity|]. split; [assumption|]. split; [reflexivity|]. split.
        + rewrite Eoff, (C2 col Hcol), Z.add_0_r. assumption.
        + intros j Hj. lia.
      - rewrite Hcol in C0. inversion C0; subst col'. rewrite <- Ecell in C1, C2.
        destruct (connectCell_spec chf x y (cIndex c) (cCount c) sp Hok Hx Hy R1 R2 ltac:(lia) I1) as (sp' & E' & J1 & J2 & J3 & J4).
        { rewrite C1. assumption. }
        exists sp'. split; [assumption|]. split; [assumption|]. split; [rewrite <- C1; assumption|].
        split; [|assumption]. rewrite Eoff, <- C1, <- C2. assumption. }
    exists sp'. split; [exact E'|]. unfold I. rewrite app_length, Nat.add_1_r, zlen_snoc. fold k.
    split; [assumption|]. split; [assumption|].
    intros x1 y1 c1 j Hx1 Hy1 Hlt Hc1 Hj.
    destruct (Z.eq_dec (cidx (chf_w chf) x1 y1) (cidx (chf_w chf) x y)) as [Eq|Nq].
    + apply cidx_inj in Eq; auto. destruct Eq; subst x1 y1. rewrite Hc in Hc1. inversion Hc1; subst c1. auto.
    + pose proof (cidx_range _ _ _ _ Hx1 Hy1) as Hr1.
      destruct (I3 x1 y1 c1 j Hx1 Hy1 ltac:(lia) Hc1 Hj) as (s & Hs & Hd).
      exists s. split; [|assumption]. rewrite J2; [assumption|].
      set (i := Z.to_nat (cidx (chf_w chf) x1 y1)) in *.
      assert (c1 = cell_of cols i) as Ec1.
      { apply get_ok in Hc1. destruct Hc1 as [_ Hc1]. fold i in Hc1. rewrite L4 in Hc1 by lia. congruence. }
      destruct (cell_of_cases cols i L5) as [[C1 C2]|(col' & C0 & C1 & C2)].
      * rewrite <- Ec1 in C1. lia.
      * pose proof (offs_S cols i col' C0). pose proof (offs_mono cols (S i) k ltac:(lia)).
        rewrite <- Ec1 in C1, C2. lia.
  - exists sp. split; [exact E|]. split; [assumption|]. intros x y c j Hx Hy. apply I3; auto.
    pose proof (cidx_range _ _ _ _ Hx Hy). rewrite cells_length by assumption. lia.
Qed.

(** ** The whole build *)
Lemma cols_in_col_at : forall hf c, hf_shape hf -> In c (hf_spans hf) -> exists x y, in_grid hf x y /\ col_at hf x y = c.
Proof.
  intros hf c Hsh Hc. pose proof Hsh as (Hw & Hh & Hs & Hl). apply In_nth_error in Hc. destruct Hc as [n Hn].
  assert (n < length (hf_spans hf))%nat by (apply nth_error_Some; congruence).
  destruct (cidx_surj (hf_w hf) (hf_h hf) (Z.of_nat n)) as (x & y & Hx & Hy & Exy); [assumption|unfold zlen in Hl; lia|].
  exists x, y. split; [split; assumption|].
  pose proof (col_at_in hf x y Hsh (conj Hx Hy)) as Eg.
  rewrite Exy in Eg. apply get_ok in Eg. destruct Eg as [_ Eg]. rewrite Nat2Z.id in Eg. congruence.
Qed.

Lemma col_at_nth : forall hf x y, hf_shape hf -> in_grid hf x y ->
  nth_error (hf_spans hf) (Z.to_nat (cidx (hf_w hf) x y)) = Some (col_at hf x y).
Proof. intros hf x y Hsh G. pose proof (col_at_in hf x y Hsh G) as E. apply get_ok in E. apply E. Qed.

Record built (wh climb : Z) (hf : Heightfield) (chf0 chf : CompactHeightfield) : Prop := {
  b_w : chf_w chf = hf_w hf; b_h : chf_h chf = hf_h hf;
  b_wh : chf_wh chf = wh; b_climb : chf_climb chf = climb;
  b_n : chf_spanCount chf = total (hf_spans hf);
  b_chf0 : chf0 = mkCHF (chf_w chf) (chf_h chf) (chf_spanCount chf) wh climb (chf_cells chf) (concat (map comp (hf_spans hf))) (chf_areas chf);
  b_yh : map yh (chf_spans chf) = map yh (concat (map comp (hf_spans hf)));
  b_areas : chf_areas chf = concat (map compa (hf_spans hf));
  b_lay : laid_out chf0 (hf_spans hf);
  b_done : forall x y c j, in_grid hf x y -> get (chf_cells chf) (cidx (hf_w hf) x y) = Ok c ->
      cIndex c <= j < cIndex c + cCount c -> done chf0 (chf_spans chf) x y j }.

Lemma build_spec : forall wh climb hf, hf_shape hf -> heights_ok hf -> total (hf_spans hf) < 2147483648 ->
  (forall x y, walkables (col_at hf x y) <= 255) ->
  exists chf0 chf, BuildCompactHeightfield wh climb hf = Ok chf /\ built wh climb hf chf0 chf.
Proof.
  intros wh climb hf Hsh Hok Htot H255. pose proof Hsh as (Hw & Hh & Hs & Hl).
  unfold BuildCompactHeightfield. rewrite (spanCount_spec hf Hsh). cbn [bind].
  destruct (compactFill_spec hf Hsh Hok Htot) as (cs & E & Hcs & Hcell). unfold zspan in E. rewrite E. cbn [bind].
  set (chf0 := mkCHF (hf_w hf) (hf_h hf) (total (hf_spans hf)) wh climb cs (concat (map comp (hf_spans hf))) (concat (map compa (hf_spans hf)))).
  assert (laid_out chf0 (hf_spans hf)) as HL.
  { unfold laid_out; cbn. do 4 (split; [auto|]). split.
    - intros c Hc. destruct (cols_in_col_at hf c Hsh Hc) as (x & y & _ & <-). auto.
    - intros c Hc s Hin. destruct (cols_in_col_at hf c Hsh Hc) as (x & y & _ & Ec). subst c.
      specialize (Hok x y s Hin). lia. }
  destruct (compactConnect_spec chf0 (hf_spans hf) Hw Hh HL) as (sp & Ec & Hyh & Hd).
  rewrite Ec. cbn [bind]. exists chf0. eexists. split; [reflexivity|].
  constructor; cbn; auto. intros x y c j [Hx Hy]. apply Hd; assumption.
Qed.

Lemma get_concat : forall {A} (f : column -> list A) cols i col k a, nth_error cols i = Some col ->
  nth_error (f col) k = Some a ->
  get (concat (map f cols)) (zlen (concat (map f (firstn i cols))) + Z.of_nat k) = Ok a.
Proof.
  intros A f cols i col k a Hc Ha. apply get_ok. split; [pose proof (zlen_nonneg (concat (map f (firstn i cols)))); lia|].
  replace (Z.to_nat (zlen (concat (map f (firstn i cols))) + Z.of_nat k)) with (length (concat (map f (firstn i cols))) + k)%nat by (unfold zlen; lia).
  assert (cols = firstn i cols ++ col :: skipn (S i) cols) as Ecols.
  { clear - Hc. revert i Hc. induction cols as [|c cols IH]; intros [|i] Hc; cbn in *; try discriminate.
    - congruence.
    - f_equal. now apply IH. }
  rewrite Ecols at 1. rewrite map_app, concat_app. cbn [map concat].
  rewrite nth_error_app2 by lia. rewrite Nat.add_comm, Nat.add_sub.
  rewrite nth_error_app1; [assumption|]. apply nth_error_Some. congruence.
Qed.

Lemma rank_S : forall c col i, rank (c :: col) (S i) = (if negb (sarea c =? 0) then 1 else 0) + rank col i.
Proof.
  intros. unfold rank, walkables. cbn [firstn filter]. destruct (negb _); [apply zlen_cons|reflexivity].
Qed.

Lemma comp_nth : forall col i s, nth_error col i = Some s -> sarea s <> 0 ->
  nth_error (comp col) (Z.to_nat (rank col i)) = Some (mkCSpan (smax s) 0 0 (Z.max 0 (Z.min 255 (ceiling col i - smax s)))) /\
  nth_error (compa col) (Z.to_nat (rank col i)) = Some (sarea s).
Proof.
  unfold compa. induction col as [|c col IH]; intros [|i] s H Ha; cbn [nth_error] in H; try discriminate.
  - inversion H; subst. cbn [comp filter].
    destruct (Z.eqb_spec (sarea s) 0); [contradiction|]. cbn [negb]. unfold rank. cbn [firstn filter walkables].
    change (walkables []) with 0. cbn [Z.to_nat nth_error map]. rewrite (ceilingOf_ceiling s col). auto.
  - destruct (IH i s H Ha) as [I1 I2]. rewrite rank_S. cbn [comp filter].
    assert (0 <= rank col i) by (unfold rank; apply walkables_nonneg).
    destruct (negb (sarea c =? 0)).
    + replace (Z.to_nat (1 + rank col i)) with (S (Z.to_nat (rank col i))) by lia. cbn [nth_error map]. auto.
    + rewrite Z.add_0_l. auto.
Qed.

Lemma firstn_filter_le : forall {A} (f : A -> bool) l i, (length (filter f (firstn i l)) <= length (filter f l))%nat.
Proof.
  intros A f. induction l as [|a l IH]; intros [|i]; cbn; try lia. specialize (IH i). destruct (f a); cbn; lia.
Qed.
Lemma rank_le : forall col i, rank col i <= walkables col.
Proof. intros. unfold rank, walkables, zlen. pose proof (firstn_filter_le (fun s => negb (sarea s =? 0)) col i). lia. Qed.
Lemma rank_lt : forall col i s, nth_error col i = Some s -> sarea s <> 0 -> 0 <= rank col i < walkables col.
Proof.
  intros col i s H Ha. split; [unfold rank; apply walkables_nonneg|].
  destruct (comp_nth col i s H Ha) as [E _].
  assert (Z.to_nat (rank col i) < length (comp col))%nat by (apply nth_error_Some; congruence).
  pose proof (comp_length col) as L. unfold zlen in L. assert (0 <= rank col i) by (unfold rank; apply walkables_nonneg). lia.
Qed.

(** Cells of a built compact heightfield. *)
Lemma built_cell : forall wh climb hf chf0 chf x y, hf_shape hf -> built wh climb hf chf0 chf -> in_grid hf x y ->
  exists c, get (chf_cells chf) (cidx (hf_w hf) x y) = Ok c /\
    cCount c = walkables (col_at hf x y) /\
    (cCount c <> 0 -> cIndex c = offs (hf_spans hf) (Z.to_nat (cidx (hf_w hf) x y))).
Proof.
  intros wh climb hf chf0 chf x y Hsh HB G. destruct HB as [Bw Bh _ _ _ B0 _ _ (L1 & L2 & L3 & L4 & L5 & L6) _].
  subst chf0. cbn [chf_w chf_h chf_cells chf_spans] in *.
  pose proof (col_at_nth hf x y Hsh G) as Hn. destruct G as [Hx Hy].
  pose proof (cidx_range _ _ _ _ Hx Hy) as Hr.
  set (i := Z.to_nat (cidx (hf_w hf) x y)) in *.
  exists (cell_of (hf_spans hf) i). split.
  - apply get_ok. split; [lia|]. apply L4. rewrite Bw, Bh. lia.
  - destruct (cell_of_cases (hf_spans hf) i L5) as [[C1 C2]|(c & C0 & C1 & C2)].
    + rewrite C1, (C2 _ Hn). split; [reflexivity|lia].
    + rewrite Hn in C0. inversion C0; subst. auto.
Qed.

Lemma built_span : forall wh climb hf chf0 chf x y i s, hf_shape hf -> built wh climb hf chf0 chf -> in_grid hf x y ->
  nth_error (col_at hf x y) i = Some s -> sarea s <> 0 ->
  exists c cs, get (chf_cells chf) (cidx (hf_w hf) x y) = Ok c /\
    get (chf_spans chf) (cIndex c + rank (col_at hf x y) i) = Ok cs /\
    csY cs = smax s /\ csH cs = Z.max 0 (Z.min 255 (ceiling (col_at hf x y) i - smax s)) /\ csReg cs = 0 /\
    get (chf_areas chf) (cIndex c + rank (col_at hf x y) i) = Ok (sarea s).
Proof.
  intros wh climb hf chf0 chf x y i s Hsh HB G Hi Ha.
  destruct (built_cell wh climb hf chf0 chf x y Hsh HB G) as (c & Hc & Hcnt & Hidx).
  destruct (comp_nth _ i s Hi Ha) as [N1 N2]. pose proof (rank_lt _ i s Hi Ha) as Hr.
  pose proof (col_at_nth hf x y Hsh G) as Hn.
  pose proof (get_concat comp _ _ _ _ _ Hn N1) as G1. pose proof (get_concat compa _ _ _ _ _ Hn N2) as G2.
  rewrite Z2Nat.id in G1, G2 by lia. rewrite offs_compa in G2. fold (offs (hf_spans hf) (Z.to_nat (cidx (hf_w hf) x y))) in G1.
  pose proof (get_map yh (chf_spans chf) (offs (hf_spans hf) (Z.to_nat (cidx (hf_w hf) x y)) + rank (col_at hf x y) i)) as M.
  rewrite (b_yh _ _ _ _ _ HB), get_map, G1 in M.
  destruct (get (chf_spans chf) _) as [cs| | |] eqn:Ecs; try discriminate.
  exists c, cs. split; [assumption|]. rewrite Hidx by lia. split; [assumption|].
  unfold yh in M. cbn [csY csReg csH] in M. inversion M. repeat split; auto.
  rewrite (b_areas _ _ _ _ _ HB). assumption.
Qed.

(** Owner cell of a span index. *)
Lemma offs_owner : forall cols j, 0 <= j < total cols -> exists i c, nth_error cols i = Some c /\ offs cols i <= j < offs cols i + walkables c.
Proof.
  intros cols j Hj.
  assert (forall n, (n <= length cols)%nat -> j < offs cols n -> exists i c, nth_error cols i = Some c /\ offs cols i <= j < offs cols i + walkables c) as G.
  { induction n as [|n IH]; intros Hn H; [rewrite offs_0 in H; lia|].
    destruct (nth_error_in_range cols n) as [c Hc]; [lia|].
    destruct (Z.lt_ge_cases j (offs cols n)).
    - apply IH; [lia|assumption].
    - exists n, c. rewrite (offs_S cols n c Hc) in H. split; [assumption|lia]. }
  apply (G (length cols)); [lia|]. rewrite offs_all by lia. lia.
Qed.

Lemma owner_unique : forall cols i i' c c' j, nth_error cols i = Some c -> nth_error cols i' = Some c' ->
  offs cols i <= j < offs cols i + walkables c -> offs cols i' <= j < offs cols i' + walkables c' -> i = i'.
Proof.
  intros cols i i' c c' j H H' Hj Hj'. pose proof (offs_S _ _ _ H). pose proof (offs_S _ _ _ H').
  destruct (Nat.lt_trichotomy i i') as [L|[E|L]]; auto.
  - pose proof (offs_mono cols (S i) i' ltac:(lia)). lia.
  - pose proof (offs_mono cols (S i') i ltac:(lia)). lia.
Qed.

(** ** Connections of the built field *)

(** Meaning of [target]. *)
Lemma target_spec : forall chf x y j s d, chf_ok chf -> get (chf_spans chf) j = Ok s ->
  let nx := x + fst (dir_step d) in
  let ny := y + snd (dir_step d) in
  (target chf x y j d = 63 /\
     ((~ (0 <= nx < chf_w chf /\ 0 <= ny < chf_h chf)) \/
      exists nc, get (chf_cells chf) (cidx (chf_w chf) nx ny) = Ok nc /\
        forall l, 0 <= l < cCount nc -> l <= 62 -> forall ns, get (chf_spans chf) (cIndex nc + l) = Ok ns ->
          ~ steppable (chf_wh chf) (chf_climb chf) s ns)) \/
  (exists nc ns, 0 <= nx < chf_w chf /\ 0 <= ny < chf_h chf /\
     get (chf_cells chf) (cidx (chf_w chf) nx ny) = Ok nc /\
     0 <= target chf x y j d < cCount nc /\ target chf x y j d <= 62 /\
     get (chf_spans chf) (cIndex nc + target chf x y j d) = Ok ns /\ steppable (chf_wh chf) (chf_climb chf) s ns /\
     forall l ns', 0 <= l < target chf x y j d -> get (chf_spans chf) (cIndex nc + l) = Ok ns' ->
       ~ steppable (chf_wh chf) (chf_climb chf) s ns').
Proof.
  intros chf x y j s d Hok Hg nx ny. unfold target. fold nx ny.
  destruct ((nx <? 0) || (ny <? 0) || (nx >=? chf_w chf) || (ny >=? chf_h chf)) eqn:EO.
  - left. split; [reflexivity|]. left. rewrite !orb_true_iff, !Z.ltb_lt, !Z.geb_leb, !Z.leb_le in EO. lia.
  - rewrite !orb_false_iff, !Z.ltb_ge, !Z.geb_leb, !Z.leb_gt in EO.
    assert (0 <= nx < chf_w chf) as Hnx by lia. assert (0 <= ny < chf_h chf) as Hny by lia.
    pose proof (cidx_range _ _ _ _ Hnx Hny) as Hcr.
    destruct (get_in_range (chf_cells chf) (cidx (chf_w chf) nx ny)) as [nc Hnc].
    { rewrite (co_cells chf Hok). lia. }
    rewrite Hg, Hnc.
    destruct (co_range chf Hok nx ny nc Hnx Hny Hnc) as (R1 & R2 & R3).
    destruct (findNeighbour_spec (chf_spans chf) (chf_wh chf) (chf_climb chf) (csY s) (csH s) (cIndex nc)
       (krange (cIndex nc) (cCount nc))) as (o & Eo & Ho).
    { intros k Hk. apply in_krange in Hk. destruct (get_in_range (chf_spans chf) k) as [ns Hns]; [lia|].
      exists ns. split; [assumption|]. apply (co_y chf Hok k ns Hns). }
    { apply (co_y chf Hok j s Hg). }
    rewrite Eo. unfold good in Ho. destruct o as [l|].
    + right. destruct Ho as (pre & post & Ep & (ns & Hns & H1 & H2 & H3) & Hp).
      assert (In (cIndex nc + l) (krange (cIndex nc) (cCount nc))) as Hin by (rewrite Ep; apply in_or_app; right; now left).
      apply in_krange in Hin.
      exists nc, ns. split; [assumption|]. split; [assumption|]. split; [reflexivity|].
      split; [lia|]. split; [lia|]. split; [assumption|]. split; [unfold steppable; lia|].
      intros l' ns' Hl' Hg' [S1 S2].
      apply (Hp (cIndex nc + l')).
      * destruct (krange_split _ _ _ _ _ Ep) as [Epre _].
        assert (In (cIndex nc + l') (krange (cIndex nc) (cCount nc))) as Hin' by (apply in_krange; lia).
        apply In_nth_error in Hin'. destruct Hin' as [q Hq].
        assert (q = Z.to_nat l') as Eq.
        { unfold krange in Hq. rewrite nth_error_map in Hq.
          assert (q < Z.to_nat (cCount nc))%nat as Lq.
          { rewrite <- (zseq_length (Z.to_nat (cCount nc))). apply nth_error_Some. destruct (nth_error (zseq _) q); discriminate. }
          unfold zseq in Hq. rewrite nth_error_map, (nth_error_nth' _ 0%nat) in Hq by now rewrite seq_length.
          rewrite seq_nth in Hq by assumption. cbn [option_map Nat.add] in Hq. inversion Hq. lia. }
        rewrite Ep in Hq. rewrite nth_error_app1 in Hq.
        -- now apply nth_error_In in Hq.
        -- unfold zlen in Epre. lia.
      * exists ns'. split; [assumption|]. lia.
    + left. split; [reflexivity|]. right. exists nc. split; [reflexivity|].
      intros l Hl Hl62 ns Hns [S1 S2]. apply (Ho (cIndex nc + l)); [apply in_krange; lia|].
      exists ns. split; [assumption|]. lia.
Qed.

Lemma steppable_yh : forall wh climb a a' b b', yh a = yh a' -> yh b = yh b' -> steppable wh climb a b -> steppable wh climb a' b'.
Proof. intros wh climb a a' b b' E1 E2. unfold yh, steppable in *. inversion E1; inversion E2. congruence. Qed.
Lemma steppable_sym : forall wh climb a b, steppable wh climb a b -> steppable wh climb b a.
Proof. unfold steppable. intros. lia. Qed.

Lemma get_yh : forall a b j s, map yh a = map yh b -> get a j = Ok s -> exists s', get b j = Ok s' /\ yh s' = yh s.
Proof.
  intros a b j s E H. pose proof (get_map yh b j) as M. rewrite <- E, get_map, H in M.
  destruct (get b j) as [s'| | |]; try discriminate. exists s'. split; [reflexivity|congruence].
Qed.

(** Statement of the connection in terms of the final field only. *)
Definition conn_spec (chf : CompactHeightfield) (x y k : Z) (s : CompactSpan) (d : nat) : Prop :=
  let nx := x + fst (dir_step d) in
  let ny := y + snd (dir_step d) in
  let l := GetCon (csCon s) (Z.of_nat d) in
  (l = 63 /\
     ((~ (0 <= nx < chf_w chf /\ 0 <= ny < chf_h chf)) \/
      exists nc, cell_at chf nx ny = Ok nc /\
        forall m ns, 0 <= m < cCount nc -> m <= 62 -> get (chf_spans chf) (cIndex nc + m) = Ok ns ->
          ~ steppable (chf_wh chf) (chf_climb chf) s ns)) \/
  (exists nc ns, 0 <= nx < chf_w chf /\ 0 <= ny < chf_h chf /\
     cell_at chf nx ny = Ok nc /\
     0 <= l < cCount nc /\ l <= 62 /\
     get (chf_spans chf) (cIndex nc + l) = Ok ns /\ steppable (chf_wh chf) (chf_climb chf) s ns /\
     forall m ns', 0 <= m < l -> get (chf_spans chf) (cIndex nc + m) = Ok ns' ->
       ~ steppable (chf_wh chf) (chf_climb chf) s ns').

Lemma built_conn : forall wh climb hf chf0 chf x y c k d, hf_shape hf -> built wh climb hf chf0 chf -> in_grid hf x y ->
  cell_at chf x y = Ok c -> 0 <= k < cCount c -> (d < 4)%nat ->
  exists s, get (chf_spans chf) (cIndex c + k) = Ok s /\ conn_spec chf x y k s d.
Proof.
  intros wh climb hf chf0 chf x y c k d Hsh HB G Hc Hk Hd.
  unfold cell_at in Hc. rewrite (b_w _ _ _ _ _ HB) in Hc.
  pose proof Hsh as (Hw & Hh & _ & _).
  assert (chf_ok chf0) as Hok.
  { apply (laid_out_ok chf0 (hf_spans hf)); [| |apply HB];
      rewrite (b_chf0 _ _ _ _ _ HB); cbn; [rewrite (b_w _ _ _ _ _ HB)|rewrite (b_h _ _ _ _ _ HB)]; assumption. }
  destruct (b_done _ _ _ _ _ HB x y c (cIndex c + k) G Hc ltac:(lia)) as (s & Hs & Hd').
  exists s. split; [assumption|]. specialize (Hd' d Hd).
  assert (map yh (chf_spans chf0) = map yh (chf_spans chf)) as Eyh.
  { rewrite (b_chf0 _ _ _ _ _ HB). cbn. symmetry. apply HB. }
  destruct (get_yh _ _ _ _ (eq_sym Eyh) Hs) as (s0 & Hs0 & Es0).
  pose proof (target_spec chf0 x y (cIndex c + k) s0 d Hok Hs0) as T. cbv zeta in T. rewrite <- Hd' in T.
  assert (chf_w chf0 = chf_w chf /\ chf_h chf0 = chf_h chf /\ chf_wh chf0 = chf_wh chf /\ chf_climb chf0 = chf_climb chf /\ chf_cells chf0 = chf_cells chf) as (F1 & F2 & F3 & F4 & F5).
  { rewrite (b_chf0 _ _ _ _ _ HB). cbn. rewrite (b_wh _ _ _ _ _ HB), (b_climb _ _ _ _ _ HB). auto. }
  rewrite F1, F2, F3, F4, F5 in T. unfold conn_spec, cell_at. unfold cidx in T. destruct T as [[T1 T2]|T].
  - left. split; [assumption|]. destruct T2 as [T2|(nc & T2 & T3)]; [auto|].
    right. exists nc. split; [assumption|]. intros m ns Hm H62 Hns Hst.
    destruct (get_yh _ _ _ _ (eq_sym Eyh) Hns) as (ns0 & Hns0 & Ens0).
    apply (T3 m Hm H62 ns0 Hns0). eapply steppable_yh; [| |exact Hst]; congruence.
  - right. destruct T as (nc & ns0 & T1 & T2 & T3 & T4 & T5 & T6 & T7 & T8).
    destruct (get_yh _ _ _ _ Eyh T6) as (ns & Hns & Ens).
    exists nc, ns. do 6 (split; [assumption|]). split.
    + eapply steppable_yh; [| |exact T7]; congruence.
    + intros m ns' Hm Hns' Hst. destruct (get_yh _ _ _ _ (eq_sym Eyh) Hns') as (ns0' & Hns0' & Ens0').
      apply (T8 m ns0' Hm Hns0'). eapply steppable_yh; [| |exact Hst]; congruence.
Qed.

(** Order of the compact spans of a column. *)
Lemma comp_above : forall col s, wf_column col -> In s (comp col) -> exists z, In z col /\ csY s = smax z.
Proof.
  induction col as [|c col IH]; intros s Hwf Hs; [contradiction|].
  destruct (wf_cons c col Hwf) as (_ & Hwf' & _). cbn [comp] in Hs. destruct (negb _).
  - destruct Hs as [<-|Hs]; [exists c; split; [now left|reflexivity]|].
    destruct (IH s Hwf' Hs) as (z & Hz & E). exists z. split; [now right|assumption].
  - destruct (IH s Hwf' Hs) as (z & Hz & E). exists z. split; [now right|assumption].
Qed.

Lemma comp_sorted : forall col i j a b, wf_column col -> (i < j)%nat ->
  nth_error (comp col) i = Some a -> nth_error (comp col) j = Some b -> csY a + csH a < csY b.
Proof.
  induction col as [|c col IH]; intros i j a b Hwf Hij Ha Hb; [destruct i; discriminate|].
  destruct (wf_cons c col Hwf) as (Hc & Hwf' & Hab). cbn [comp] in Ha, Hb. destruct (negb _).
  - destruct i as [|i], j as [|j]; try lia; cbn [nth_error] in Ha, Hb.
    + inversion Ha; subst a. cbn [csY csH]. apply nth_error_In in Hb.
      destruct (comp_above col b Hwf' Hb) as (z & Hz & ->).
      assert (ceilingOf col <= smin z).
      { destruct col as [|n col]; [contradiction|]. cbn. destruct Hz as [->|Hz]; [lia|].
        destruct (wf_cons n col Hwf') as (Hn & _ & Hn'). specialize (Hn' z Hz). lia. }
      assert (smin z < smax z) by (destruct Hwf' as [F _]; eapply Forall_forall in F; eauto).
      assert (smax c < smin z) by auto. lia.
    + eapply (IH i j); eauto. lia.
  - eapply (IH i j); eauto.
Qed.

Lemma built_order : forall wh climb hf chf0 chf x y c k k' a b, hf_shape hf -> built wh climb hf chf0 chf -> in_grid hf x y ->
  wf_column (col_at hf x y) -> cell_at chf x y = Ok c -> 0 <= k < k' -> k' < cCount c ->
  get (chf_spans chf) (cIndex c + k) = Ok a -> get (chf_spans chf) (cIndex c + k') = Ok b ->
  csY a + csH a < csY b.
Proof.
  intros wh climb hf chf0 chf x y c k k' a b Hsh HB G Hwf Hc Hk Hk' Ha Hb.
  unfold cell_at in Hc. rewrite (b_w _ _ _ _ _ HB) in Hc.
  destruct (built_cell wh climb hf chf0 chf x y Hsh HB G) as (c' & Hc' & Hcnt & Hidx).
  unfold cidx in Hc' at 1. rewrite Hc in Hc'. inversion Hc'; subst c'.
  rewrite Hidx in Ha, Hb by lia. pose proof (col_at_nth hf x y Hsh G) as Hn.
  set (i := Z.to_nat (cidx (hf_w hf) x y)) in *.
  pose proof (comp_length (col_at hf x y)) as Hl. unfold zlen in Hl.
  destruct (nth_error_in_range (comp (col_at hf x y)) (Z.to_nat k)) as [a0 Ha0]; [lia|].
  destruct (nth_error_in_range (comp (col_at hf x y)) (Z.to_nat k')) as [b0 Hb0]; [lia|].
  pose proof (get_concat comp _ _ _ _ _ Hn Ha0) as Ga. pose proof (get_concat comp _ _ _ _ _ Hn Hb0) as Gb.
  fold (offs (hf_spans hf) i) in Ga, Gb. rewrite Z2Nat.id in Ga, Gb by lia.
  destruct (get_yh _ _ _ _ (b_yh _ _ _ _ _ HB) Ha) as (a1 & Ha1 & Ea1).
  destruct (get_yh _ _ _ _ (b_yh _ _ _ _ _ HB) Hb) as (b1 & Hb1 & Eb1).
  rewrite Ga in Ha1. rewrite Gb in Hb1. inversion Ha1; subst a1. inversion Hb1; subst b1.
  assert (Z.to_nat k < Z.to_nat k')%nat as Hlt by lia. pose proof (comp_sorted _ _ _ _ _ Hwf Hlt Ha0 Hb0) as Ho.
  unfold yh in *. inversion Ea1. inversion Eb1. lia.
Qed.

Definition opp (d : nat) : nat := match d with 0%nat => 2%nat | 1%nat => 3%nat | 2%nat => 0%nat | _ => 1%nat end.

Lemma built_mutual : forall wh climb hf chf0 chf x y c k d s l, hf_shape hf -> built wh climb hf chf0 chf ->
  (forall x y, wf_column (col_at hf x y)) -> (forall x y, walkables (col_at hf x y) <= 63) -> climb <= wh ->
  in_grid hf x y -> cell_at chf x y = Ok c -> 0 <= k < cCount c -> (d < 4)%nat ->
  get (chf_spans chf) (cIndex c + k) = Ok s -> GetCon (csCon s) (Z.of_nat d) = l -> l <> 63 ->
  exists nc ns, cell_at chf (x + fst (dir_step d)) (y + snd (dir_step d)) = Ok nc /\ 0 <= l < cCount nc /\
    get (chf_spans chf) (cIndex nc + l) = Ok ns /\ GetCon (csCon ns) (Z.of_nat (opp d)) = k.
Proof.
  intros wh climb hf chf0 chf x y c k d s l Hsh HB Hwf H63 Hcl G Hc Hk Hd Hs Hl Hne.
  destruct (built_conn wh climb hf chf0 chf x y c k d Hsh HB G Hc Hk Hd) as (s' & Hs' & Hcs).
  rewrite Hs in Hs'. inversion Hs'; subst s'. unfold conn_spec in Hcs. rewrite Hl in Hcs.
  destruct Hcs as [[? _]|(nc & ns & Hnx & Hny & Hnc & Hlr & Hl62 & Hns & Hst & _)]; [contradiction|].
  exists nc, ns. do 3 (split; [assumption|]).
  set (nx := x + fst (dir_step d)) in *. set (ny := y + snd (dir_step d)) in *.
  assert (in_grid hf nx ny) as G'.
  { rewrite (b_w _ _ _ _ _ HB) in Hnx. rewrite (b_h _ _ _ _ _ HB) in Hny. split; assumption. }
  assert (opp d < 4)%nat as Hd' by (destruct d as [|[|[|[|d]]]]; cbn; lia).
  assert (nx + fst (dir_step (opp d)) = x /\ ny + snd (dir_step (opp d)) = y) as [Ex Ey].
  { unfold nx, ny. clear. destruct d as [|[|[|d]]]; cbn [dir_step opp fst snd]; lia. }
  destruct (built_conn wh climb hf chf0 chf nx ny nc l (opp d) Hsh HB G' Hnc Hlr Hd') as (ns' & Hns' & Hcs).
  rewrite Hns in Hns'. inversion Hns'; subst ns'. unfold conn_spec in Hcs. rewrite Ex, Ey in Hcs.
  assert (cCount c <= 63) as Hcc.
  { destruct (built_cell wh climb hf chf0 chf x y Hsh HB G) as (c' & Hc' & Hcnt & _).
    unfold cell_at in Hc. rewrite (b_w _ _ _ _ _ HB) in Hc. unfold cidx in Hc'. rewrite Hc in Hc'. inversion Hc'; subst c'.
    rewrite Hcnt. auto. }
  rewrite (b_wh _ _ _ _ _ HB), (b_climb _ _ _ _ _ HB) in *.
  destruct Hcs as [[_ [Hout|(c' & Hc' & Hno)]]|(c' & s1 & _ & _ & Hc' & Hmr & _ & Hs1 & Hst1 & Hmin)].
  - exfalso. apply Hout. rewrite (b_w _ _ _ _ _ HB), (b_h _ _ _ _ _ HB). destruct G. auto.
  - exfalso. rewrite Hc in Hc'. inversion Hc'; subst c'. apply (Hno k s); auto; try lia. now apply steppable_sym.
  - rewrite Hc in Hc'. inversion Hc'; subst c'. set (m := GetCon (csCon ns) (Z.of_nat (opp d))) in *.
    destruct (Z.lt_trichotomy m k) as [L|[E|L]]; auto; exfalso.
    + pose proof (built_order wh climb hf chf0 chf x y c m k s1 s Hsh HB G (Hwf x y) Hc ltac:(lia) ltac:(lia) Hs1 Hs) as Ho.
      destruct Hst as [A1 A2]. destruct Hst1 as [B1 B2]. lia.
    + apply (Hmin k s); auto; try lia. now apply steppable_sym.
Qed.
