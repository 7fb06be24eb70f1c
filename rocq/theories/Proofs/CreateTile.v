(** CreateNavMeshData as a whole: types, sizes, bytes, and when it panics. *)
From Coq Require Import ZArith List Lia Bool Permutation.
From Verif.Base Require Import Res GoNum F32 Num Grid Bits Bytes.
From Verif.Model Require Import Poly MeshTypes Geom MeshLinks BvTree Serial SegDist Create.
From Verif.Spec Require Import SerialSpec CreateSpec BvSpec.
From Verif.Proofs Require Import CompactProofs SerialProofs BvProofs FloatAdd FloatMag FloatOk CreateBase CreateProofs.
From Verif.Properties Require Import DetourBv.
Import ListNotations.
Open Scope Z_scope.

(** ** Tree nodes hold uint16 boxes and int32 indices *)
Definition typed_item (it : bvItem) : Prop := u16x3 (iMin it) /\ u16x3 (iMax it) /\ is_i32 (iI it).
Lemma ext_typed : forall mn mx it, u16x3 mn -> u16x3 mx -> typed_item it -> u16x3 (fst (ext_step (mn, mx) it)) /\ u16x3 (snd (ext_step (mn, mx) it)).
Proof.
  intros [[a b] c] [[d e] f] [[[g h] i] [[j k] l] n] (A & B & C) (D & E & F) ((G & H & I) & (J & K & L) & _). cbn [iMin iMax] in *. unfold ext_step. cbn [fst snd iMin iMax c0 c1 c2 u16x3].
  repeat split; repeat match goal with |- context [if ?x then _ else _] => destruct x end; apply A || apply B || apply C || apply D || apply E || apply F || apply G || apply H || apply I || apply J || apply K || apply L.
Qed.
Lemma calc_typed : forall items a b mn mx, Forall typed_item items -> calcExtends items a b = Ok (mn, mx) -> u16x3 mn /\ u16x3 mx.
Proof.
  intros items a b mn mx F E. unfold calcExtends in E. apply bind_ok in E as (it & G & E). rewrite Forall_forall in F.
  assert (T : forall i x, get items i = Ok x -> typed_item x) by (intros i x Gx; apply get_ok in Gx as [_ Gx]; apply F; eapply nth_error_In; exact Gx).
  pose proof (foldM_ok_pres _ (fun s => u16x3 (fst s) /\ u16x3 (snd s)) _ _ _ E) as K. cbn [fst snd] in K. apply K; clear K.
  - destruct (T _ _ G) as (A & B & _). auto.
  - intros k [m x] s' _ [A B] S. apply bind_ok in S as (it' & G' & S). apply Ok_inj in S. subst s'. apply ext_typed; auto. eapply T. exact G'.
Qed.
Lemma typed_upd : forall {A} (P : A -> Prop) l i v l', Forall P l -> P v -> set l i v = Ok l' -> Forall P l'.
Proof.
  intros A P l i v l' F Pv E. apply set_ok in E as [_ ->]. apply Forall_forall. intros x Hx. rewrite Forall_forall in F.
  apply In_nth_error in Hx as [n Hn]. rewrite nth_error_upd in Hn. destruct (Nat.eqb n (Z.to_nat i)).
  - destruct (nth_error l (Z.to_nat i)); [inversion Hn; subst; exact Pv|discriminate].
  - apply F. eapply nth_error_In. exact Hn.
Qed.
Lemma subdivide_typed : forall sort, (forall less l, Permutation (sort less l) l) ->
  forall fuel items a b cur nodes items' cur' nodes', Forall typed_item items -> Forall typed_bv nodes ->
  subdivide sort fuel items a b cur nodes = Ok (items', cur', nodes') -> Forall typed_item items' /\ Forall typed_bv nodes'.
Proof.
  intros sort Hs. induction fuel as [|f IH]; intros items a b cur nodes items' cur' nodes' FI FN E; [discriminate|]. cbn [subdivide] in E.
  apply bind_ok in E as (node & Gn & E). assert (Tn : typed_bv node) by (apply get_ok in Gn as [_ Gn]; rewrite Forall_forall in FN; apply FN; eapply nth_error_In; exact Gn).
  destruct (i32 (b - a) =? 1).
  - apply bind_ok in E as (it & G & E). apply bind_ok in E as (ns & S & E). apply Ok_inj in E. inversion E; subst. split; [exact FI|].
    eapply typed_upd; [exact FN| |exact S]. apply get_ok in G as [_ G]. rewrite Forall_forall in FI. exact (FI it (nth_error_In _ _ G)).
  - apply bind_ok in E as ([mn mx] & C & E). destruct (calc_typed _ _ _ _ _ FI C) as [Tm Tx]. apply bind_ok in E as (ns & S & E).
    assert (F1 : Forall typed_bv ns) by (eapply typed_upd; [exact FN| |exact S]; destruct Tn as (_ & _ & Ti); split; [|split]; assumption).
    apply bind_ok in E as (its & So & E).
    assert (F2 : Forall typed_item its).
    { unfold sort_range in So. apply bind_ok in So as (mid & Sl & So). apply Ok_inj in So. subst its. unfold slice in Sl.
      destruct ((0 <=? a) && (a <=? a + i32 (b - a)) && (a + i32 (b - a) <=? zlen items)); [|discriminate]. apply Ok_inj in Sl. subst mid.
      apply Forall_app. rewrite <- (firstn_skipn (Z.to_nat a) items) in FI. apply Forall_app in FI as [FI1 FI2]. split; [exact FI1|]. apply Forall_app. split.
      - eapply Permutation_Forall; [apply Permutation_sym, Hs|]. rewrite <- (firstn_skipn (Z.to_nat (a + i32 (b - a) - a)) (skipn (Z.to_nat a) items)) in FI2. now apply Forall_app in FI2 as [FI2 _].
      - assert (FA : Forall typed_item items) by (rewrite <- (firstn_skipn (Z.to_nat a) items); apply Forall_app; now split).
        rewrite <- (firstn_skipn (Z.to_nat (a + i32 (b - a))) items) in FA. now apply Forall_app in FA as [_ FA]. }
    apply bind_ok in E as ([[i1 c1'] n1] & S1 & E). destruct (IH _ _ _ _ _ _ _ _ F2 F1 S1) as [F3 F4].
    apply bind_ok in E as ([[i2 c2'] n2] & S2 & E). destruct (IH _ _ _ _ _ _ _ _ F3 F4 S2) as [F5 F6].
    apply bind_ok in E as (n3 & S3 & E). apply Ok_inj in E. inversion E; subst. split; [exact F5|].
    eapply typed_upd; [exact F6| |exact S3]. split; [exact Tm|]. split; [exact Tx|]. apply i32_range.
Qed.
Lemma quant_u16 : forall v o q, is_u16 (quant_item v o q).
Proof. intros. apply u16_range. Qed.
Lemma createBV_typed : forall sort, (forall less l, Permutation (sort less l) l) ->
  forall n dm dv org cs nodes nodes' c, n < 2147483648 -> Forall typed_bv nodes -> createBVTree sort n dm dv org cs nodes = Ok (nodes', c) -> Forall typed_bv nodes'.
Proof.
  intros sort Hs n dm dv org cs nodes nodes' c Hn FN E. unfold createBVTree in E. destruct dm as [|d ds].
  - destruct (n <=? 0); [|discriminate]. apply bind_ok in E as ([[i1 c1'] n1] & S1 & E). apply Ok_inj in E. inversion E; subst.
    eapply subdivide_typed; [exact Hs| |exact FN|exact S1]. constructor.
  - apply bind_ok in E as (items & EI & E). apply bind_ok in E as ([[i1 c1'] n1] & S1 & E). apply Ok_inj in E. inversion E; subst.
    eapply subdivide_typed; [exact Hs| |exact FN|exact S1].
    apply (foldM_ok_pres _ (fun l => Forall typed_item l) _ _ _ EI); [constructor|]. intros i acc acc' Hi FA S. apply bind_ok in S as (it & B & S). apply Ok_inj in S. subst acc'.
    apply Forall_app. split; [exact FA|]. constructor; [|constructor]. unfold bv_item in B. apply bind_ok in B as (vb & _ & B). apply bind_ok in B as (ndv & _ & B).
    apply bind_ok in B as (v & _ & B). apply bind_ok in B as ([mn mx] & _ & B). apply Ok_inj in B. subst it. apply in_zseq in Hi.
    split; [|split]; cbn [iMin iMax iI quant_box]; [| |unfold is_i32; lia]; (split; [|split]); apply quant_u16.
Qed.

(** ** Sizes in bytes *)
Lemma write_all_bound : forall {A} (wr : list Z -> Z -> A -> res (list Z)) stride, 
  (forall dst off x dst', wr dst off x = Ok dst' -> zlen dst' = zlen dst /\ off + stride <= zlen dst) ->
  forall l dst off dst' off', write_all wr stride dst off l = Ok (dst', off') ->
    zlen dst' = zlen dst /\ off' = off + stride * zlen l /\ (l <> [] -> off' <= zlen dst).
Proof.
  intros A wr stride H. induction l as [|x l IH]; intros dst off dst' off' E; cbn [write_all] in E.
  - apply Ok_inj in E. inversion E; subst. change (zlen (@nil A)) with 0. split; [reflexivity|]. split; [lia|congruence].
  - apply bind_ok in E as (d & W & E). destruct (H _ _ _ _ W) as [L B]. destruct (IH _ _ _ _ E) as (L' & -> & N). rewrite zlen_cons. split; [lia|]. split; [lia|]. intros _.
    destruct l as [|y l]; [change (zlen (@nil A)) with 0; lia|]. specialize (N ltac:(discriminate)). lia.
Qed.
Lemma put_len : forall dst off bs dst', put dst off bs = Ok dst' -> zlen dst' = zlen dst /\ off + zlen bs <= zlen dst.
Proof.
  intros dst off bs dst' E. unfold put in E. destruct (Z.leb_spec 0 off); cbn [andb] in E; [|discriminate]. destruct (Z.leb_spec (off + zlen bs) (zlen dst)); [|discriminate].
  apply Ok_inj in E. subst dst'. split; [|lia]. unfold zlen in *. rewrite !app_length, firstn_length, skipn_length. lia.
Qed.
Lemma puts_len : forall ws dst off dst', puts dst off ws = Ok dst' -> zlen dst' = zlen dst.
Proof.
  induction ws as [|[d bs] ws IH]; intros dst off dst' E; cbn [puts] in E; [apply Ok_inj in E; now subst|].
  apply bind_ok in E as (d' & P & E). apply put_len in P as [L _]. rewrite (IH _ _ _ E). exact L.
Qed.
Lemma puts_snoc_len : forall ws dst off d bs dst', puts dst off (ws ++ [(d, bs)]) = Ok dst' -> zlen dst' = zlen dst /\ off + d + zlen bs <= zlen dst.
Proof.
  induction ws as [|[d0 bs0] ws IH]; intros dst off d bs dst' E; cbn [app puts] in E.
  - apply bind_ok in E as (d' & P & E). apply Ok_inj in E. subst d'. now apply put_len in P.
  - apply bind_ok in E as (d' & P & E). apply put_len in P as [L _]. destruct (IH _ _ _ _ _ E). lia.
Qed.
Lemma write_f32_len : forall dst off x dst', write_f32 dst off x = Ok dst' -> zlen dst' = zlen dst /\ off + 4 <= zlen dst.
Proof. intros dst off x dst' E. apply put_len in E. exact E. Qed.
Lemma put16_len : forall dst off x dst', put16 dst off x = Ok dst' -> zlen dst' = zlen dst /\ off + 2 <= zlen dst.
Proof. intros dst off x dst' E. apply put_len in E. exact E. Qed.
Lemma write_link_len : forall dst off x dst', write_link dst off x = Ok dst' -> zlen dst' = zlen dst /\ off + 12 <= zlen dst.
Proof.
  intros dst off x dst' E. unfold write_link in E. apply (puts_snoc_len [(0, le32 (lRef x)); (4, le32 (lNext x)); (8, [lEdge x]); (9, [lSide x]); (10, [lBMin x])]) in E.
  unfold zlen in *. cbn [length] in E. lia.
Qed.
Lemma write_detail_len : forall dst off x dst', write_detail dst off x = Ok dst' -> zlen dst' = zlen dst.
Proof. intros dst off x dst' E. now apply puts_len in E. Qed.
Lemma write_bv_len : forall dst off x dst', write_bv dst off x = Ok dst' -> zlen dst' = zlen dst /\ off + 16 <= zlen dst.
Proof.
  intros dst off [[[n0 n1] n2] [[x0 x1] x2] i] dst' E. unfold write_bv in E. cbn [bMin bMax bI] in E.
  apply (puts_snoc_len [(0, le16 n0); (2, le16 n1); (4, le16 n2); (6, le16 x0); (8, le16 x1); (10, le16 x2)]) in E. unfold lei, le32 in E. unfold zlen in *. cbn [length] in E. lia.
Qed.
Lemma write_con_len : forall dst off x dst', write_con dst off x = Ok dst' -> zlen dst' = zlen dst /\ off + 36 <= zlen dst.
Proof.
  intros dst off [pos rad po fl sd uid] dst' E. unfold write_con in E. cbn [ocPos ocRad ocPoly ocFlags ocSide ocUserID] in E. apply bind_ok in E as (d1 & P1 & E).
  do 6 (destruct pos as [|? pos]; [discriminate|]). destruct pos; [|discriminate]. apply puts_len in P1. apply bind_ok in E as (d2 & P2 & E). apply put_len in P2 as [P2 _].
  apply bind_ok in E as (d3 & P3 & E). apply put_len in P3 as [P3 _]. apply (puts_snoc_len []) in E. unfold le32 in E. unfold zlen in *. cbn [length] in E. lia.
Qed.
(** Lengths only. *)
Lemma write_all_len : forall {A} (wr : list Z -> Z -> A -> res (list Z)) stride, (forall dst off x dst', wr dst off x = Ok dst' -> zlen dst' = zlen dst) ->
  forall l dst off dst' off', write_all wr stride dst off l = Ok (dst', off') -> zlen dst' = zlen dst /\ off' = off + stride * zlen l.
Proof.
  intros A wr stride H. induction l as [|x l IH]; intros dst off dst' off' E; cbn [write_all] in E.
  - apply Ok_inj in E. inversion E; subst. change (zlen (@nil A)) with 0. split; [reflexivity|lia].
  - apply bind_ok in E as (d & W & E). pose proof (H _ _ _ _ W). destruct (IH _ _ _ _ E) as (L' & ->). rewrite zlen_cons. split; lia.
Qed.
Lemma write_poly_len : forall dst off x dst', write_poly dst off x = Ok dst' -> zlen dst' = zlen dst.
Proof.
  intros dst off x dst' E. unfold write_poly in E. apply bind_ok in E as (d1 & P1 & E). apply put_len in P1 as [P1 _].
  apply bind_ok in E as ([d2 o2] & P2 & E). apply (write_all_len put16) in P2; [|intros; eapply put16_len; eassumption].
  apply bind_ok in E as ([d3 o3] & P3 & E). apply (write_all_len put16) in P3; [|intros; eapply put16_len; eassumption]. apply puts_len in E. lia.
Qed.
Lemma serialize_needs : forall dst t dst', serializeTileData dst t = Ok dst' -> tdBv t <> [] -> data_bytes t <= zlen dst.
Proof.
  intros dst t dst' E NE. unfold serializeTileData in E.
  apply bind_ok in E as ([d1 o1] & P1 & E). apply (write_all_len write_f32) in P1 as [L1 ->]; [|intros; eapply write_f32_len; eassumption].
  apply bind_ok in E as ([d2 o2] & P2 & E). apply (write_all_len write_poly) in P2 as [L2 ->]; [|exact write_poly_len].
  apply bind_ok in E as ([d3 o3] & P3 & E). apply (write_all_len write_link) in P3 as [L3 ->]; [|intros; eapply write_link_len; eassumption].
  apply bind_ok in E as ([d4 o4] & P4 & E). apply (write_all_len write_detail) in P4 as [L4 ->]; [|exact write_detail_len].
  apply bind_ok in E as ([d5 o5] & P5 & E). apply (write_all_len write_f32) in P5 as [L5 ->]; [|intros; eapply write_f32_len; eassumption].
  apply bind_ok in E as (d6 & P6 & E). assert (L6 : zlen d6 = zlen d5).
  { unfold copy_at in P6. destruct (_ && _) in P6; [|discriminate]. now apply put_len in P6. }
  apply bind_ok in E as ([d7 o7] & P7 & E). apply (write_all_bound write_bv 16 write_bv_len) in P7 as (L7 & -> & B7). specialize (B7 NE).
  apply bind_ok in E as ([d8 o8] & P8 & E). apply (write_all_bound write_con 36 write_con_len) in P8 as (L8 & -> & B8).
  unfold data_bytes. destruct (tdCons t) as [|c cs]; [change (zlen (@nil OffMeshCon)) with 0; lia|]. specialize (B8 ltac:(discriminate)). lia.
Qed.
