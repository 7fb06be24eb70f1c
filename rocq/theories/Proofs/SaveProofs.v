(** Saving and loading a navigation mesh: ToWriter, Size and Decode. *)
From Coq Require Import ZArith List Bool Lia.
From Verif.Base Require Import Res GoNum F32 Num Grid Bytes.
From Verif.Model Require Import Status Poly PolyRef Bounds Geom MeshTypes Serial MeshLinks MeshTiles.
From Verif.Spec Require Import LinkSpec SerialSpec MeshSpec.
From Verif.Proofs Require Import BasicsProofs PolyRefProofs SerialProofs LinkProofs IntLinkProofs MeshStep TableProofs SlotProofs LinkTile MeshInv FitProofs MeshHist.
Import ListNotations.
Open Scope Z_scope.

Lemma In_firstn_skipn_sub : forall {A} (l : list A) n k x, In x (firstn n (skipn k l)) -> In x l.
Proof.
  intros A l n k x H. rewrite <- (firstn_skipn k l). apply in_app_iff. right. rewrite <- (firstn_skipn n (skipn k l)). apply in_app_iff. now left.
Qed.

(** ** What is read from bytes has the right types *)
Section Typed.
  Variable src : list Z.
  Hypothesis Hsrc : Forall is_u8 src.
  Lemma get_u8 : forall k v, get src k = Ok v -> is_u8 v.
  Proof. intros k v H. apply get_ok in H. destruct H as (_ & H). apply nth_error_In in H. rewrite Forall_forall in Hsrc. auto. Qed.
  Lemma rd16_u16 : forall k v, rd16 src k = Ok v -> is_u16 v.
  Proof.
    intros k v H. unfold rd16 in H. apply bind_ok in H. destruct H as (a & Ha & H). apply bind_ok in H. destruct H as (b & Hb & H).
    apply Ok_inj in H. subst v. apply get_u8 in Ha, Hb. unfold is_u8, is_u16 in *. lia.
  Qed.
  Lemma rd32_u32 : forall k v, rd32 src k = Ok v -> is_u32 v.
  Proof.
    intros k v H. unfold rd32 in H. apply bind_ok in H. destruct H as (a & Ha & H). apply bind_ok in H. destruct H as (b & Hb & H).
    apply bind_ok in H. destruct H as (c & Hc & H). apply bind_ok in H. destruct H as (d & Hd & H).
    apply Ok_inj in H. subst v. apply get_u8 in Ha, Hb, Hc, Hd. unfold is_u8, is_u32 in *. lia.
  Qed.
  Lemma read_all_Forall : forall {A} (rd : Z -> res A) (P : A -> Prop), (forall k v, rd k = Ok v -> P v) ->
    forall stride n off l, read_all rd stride n off = Ok l -> Forall P l.
  Proof.
    intros A rd P Hrd stride n. induction n as [|n IH]; intros off l H; cbn [read_all] in H.
    - apply Ok_inj in H. subst. constructor.
    - apply bind_ok in H. destruct H as (x & Hx & H). apply bind_ok in H. destruct H as (k & Hk & H). apply Ok_inj in H. subst l. eauto.
  Qed.
  Lemma read_poly_typed : forall k p, read_poly src k = Ok p -> typed_poly p.
  Proof.
    intros k p H. unfold read_poly in H. apply bind_ok in H. destruct H as (fl & H0 & H). apply bind_ok in H. destruct H as (vs & H1 & H).
    apply bind_ok in H. destruct H as (ns & H2 & H). apply bind_ok in H. destruct H as (fg & H3 & H). apply bind_ok in H. destruct H as (vc & H4 & H).
    apply bind_ok in H. destruct H as (ar & H5 & H). apply Ok_inj in H. subst p. unfold typed_poly. cbn [pFirstLink pVerts pNeis pFlags pVertCount pAreaAndType].
    split; [eapply rd32_u32; exact H0|]. split; [eapply read_all_length; exact H1|]. split; [eapply read_all_Forall; [|exact H1]; exact rd16_u16|].
    split; [eapply read_all_length; exact H2|]. split; [eapply read_all_Forall; [|exact H2]; exact rd16_u16|].
    split; [eapply rd16_u16; exact H3|]. split; [eapply get_u8; exact H4|eapply get_u8; exact H5].
  Qed.
  Lemma read_link_typed : forall k p, read_link src k = Ok p -> typed_link p.
  Proof.
    intros k p H. unfold read_link in H. apply bind_ok in H. destruct H as (a & H0 & H). apply bind_ok in H. destruct H as (b & H1 & H).
    apply bind_ok in H. destruct H as (c & H2 & H). apply bind_ok in H. destruct H as (d & H3 & H). apply bind_ok in H. destruct H as (e & H4 & H).
    apply bind_ok in H. destruct H as (f & H5 & H). apply Ok_inj in H. subst p. unfold typed_link. cbn [lRef lNext lEdge lSide lBMin lBMax].
    split; [eapply rd32_u32; exact H0|]. split; [eapply rd32_u32; exact H1|]. split; [eapply get_u8; exact H2|]. split; [eapply get_u8; exact H3|].
    split; [eapply get_u8; exact H4|eapply get_u8; exact H5].
  Qed.
  Lemma read_detail_typed : forall k p, read_detail src k = Ok p -> typed_detail p.
  Proof.
    intros k p H. unfold read_detail in H. apply bind_ok in H. destruct H as (a & H0 & H). apply bind_ok in H. destruct H as (b & H1 & H).
    apply bind_ok in H. destruct H as (c & H2 & H). apply bind_ok in H. destruct H as (d & H3 & H). apply Ok_inj in H. subst p.
    unfold typed_detail. cbn [dVertBase dTriBase dVertCount dTriCount].
    split; [eapply rd32_u32; exact H0|]. split; [eapply rd32_u32; exact H1|]. split; [eapply get_u8; exact H2|eapply get_u8; exact H3].
  Qed.
  Lemma read_bv_typed : forall k p, read_bv src k = Ok p -> typed_bv p.
  Proof.
    intros k p H. unfold read_bv in H. apply bind_ok in H. destruct H as (a & H0 & H). apply bind_ok in H. destruct H as (b & H1 & H).
    apply bind_ok in H. destruct H as (c & H2 & H). apply bind_ok in H. destruct H as (d & H3 & H). apply bind_ok in H. destruct H as (e & H4 & H).
    apply bind_ok in H. destruct H as (f & H5 & H). apply bind_ok in H. destruct H as (i & H6 & H). apply Ok_inj in H. subst p.
    unfold typed_bv, u16x3. cbn [bMin bMax bI]. apply rd16_u16 in H0, H1, H2, H3, H4, H5. apply rdi32_range in H6. tauto.
  Qed.
  Lemma read_con_typed : forall k p, read_con src k = Ok p -> typed_con p.
  Proof.
    intros k p H. unfold read_con in H. apply bind_ok in H. destruct H as (a & H0 & H). apply bind_ok in H. destruct H as (b & H1 & H).
    apply bind_ok in H. destruct H as (c & H2 & H). apply bind_ok in H. destruct H as (d & H3 & H). apply bind_ok in H. destruct H as (e & H4 & H).
    apply bind_ok in H. destruct H as (f & H5 & H). apply Ok_inj in H. subst p. unfold typed_con. cbn [ocPos ocRad ocPoly ocFlags ocSide ocUserID].
    split; [eapply read_all_length; exact H0|]. split; [eapply read_all_Forall; [|exact H0]; exact rd32_u32|].
    split; [eapply rd32_u32; exact H1|]. split; [eapply rd16_u16; exact H2|]. split; [eapply get_u8; exact H3|]. split; [eapply get_u8; exact H4|eapply rd32_u32; exact H5].
  Qed.
  Lemma tile_unserialize_typed : forall h td, tile_unserialize h src = Ok td -> typed_tile td.
  Proof.
    intros h td H. unfold tile_unserialize in H.
    apply bind_ok in H. destruct H as (nv & Hnv & H). apply bind_ok in H. destruct H as (verts & Hv & H).
    apply bind_ok in H. destruct H as (np & Hnp & H). apply bind_ok in H. destruct H as (polys & Hp & H).
    apply bind_ok in H. destruct H as (nl & Hnl & H). apply bind_ok in H. destruct H as (links & Hl & H).
    apply bind_ok in H. destruct H as (nd & Hnd & H). apply bind_ok in H. destruct H as (dms & Hdm & H).
    apply bind_ok in H. destruct H as (ndv & Hndv & H). apply bind_ok in H. destruct H as (dvs & Hdv & H).
    apply bind_ok in H. destruct H as (ndt & Hndt & H). apply bind_ok in H. destruct H as (dts & Hdt & H).
    apply bind_ok in H. destruct H as (nb & Hnb & H). apply bind_ok in H. destruct H as (bvs & Hbv & H).
    apply bind_ok in H. destruct H as (nc & Hnc & H). apply bind_ok in H. destruct H as (ocs & Hoc & H).
    apply Ok_inj in H. subst td. unfold typed_tile. cbn [tdVerts tdPolys tdLinks tdDMeshes tdDVerts tdDTris tdBv tdCons].
    split; [eapply read_all_Forall; [|exact Hv]; exact rd32_u32|]. split; [eapply read_all_Forall; [|exact Hp]; exact read_poly_typed|].
    split; [eapply read_all_Forall; [|exact Hl]; exact read_link_typed|]. split; [eapply read_all_Forall; [|exact Hdm]; exact read_detail_typed|].
    split; [eapply read_all_Forall; [|exact Hdv]; exact rd32_u32|].
    split; [|split; [eapply read_all_Forall; [|exact Hbv]; exact read_bv_typed|eapply read_all_Forall; [|exact Hoc]; exact read_con_typed]].
    unfold read_copy in Hdt. destruct (_ && _) in Hdt; [|discriminate]. apply Ok_inj in Hdt. subst dts. apply Forall_app. split.
    - apply Forall_forall. intros x Hx. rewrite Forall_forall in Hsrc. apply Hsrc.
      apply (In_firstn_skipn_sub src ndt _ x Hx).
    - apply Forall_forall. intros x Hx. apply repeat_spec in Hx. subst x. unfold is_u8. lia.
  Qed.
  Lemma header_typed : forall h, header_unserialize src = Ok h -> typed_header h.
  Proof.
    intros h H. unfold header_unserialize in H. destruct (zlen src <? 100); [discriminate|].
    do 25 (apply bind_ok in H; let x := fresh "x" in let E := fresh "E" in destruct H as (x & E & H)).
    apply Ok_inj in H. subst h. unfold typed_header, u32x3.
    cbn [hMagic hVersion hX hY hLayer hPolyCount hVertCount hMaxLinkCount hDetailMeshCount hDetailVertCount hDetailTriCount hBvNodeCount hOffMeshConCount hOffMeshBase hUserID hWalkableHeight hWalkableRadius hWalkableClimb hBvQuantFactor hBMin hBMax].
    repeat match goal with E : rdi32 _ _ = Ok _ |- _ => apply rdi32_range in E | E : rd32 src _ = Ok _ |- _ => apply rd32_u32 in E end.
    split; [|split; [|tauto]].
    - do 14 (constructor; [assumption|]). constructor.
    - do 5 (constructor; [assumption|]). constructor.
  Qed.
End Typed.

(** ** The record written for a tile *)
Lemma le32_u32 : forall v, le32 (u32 v) = le32 v.
Proof.
  intros v. assert (E : u32 v = v - 4294967296 * (v / 4294967296)) by (unfold u32; rewrite Z.mod_eq by lia; lia).
  set (k := v / 4294967296) in E. unfold le32. rewrite E.
  assert (E0 : (v - 4294967296 * k) mod 256 = v mod 256) by (replace (v - 4294967296 * k) with (v + (- 16777216 * k) * 256) by lia; apply Z.mod_add; lia).
  assert (E1 : (v - 4294967296 * k) / 256 mod 256 = v / 256 mod 256).
  { replace (v - 4294967296 * k) with (v + (- 16777216 * k) * 256) by lia. rewrite Z.div_add by lia.
    replace (- 16777216 * k) with ((- 65536 * k) * 256) by lia. apply Z.mod_add; lia. }
  assert (E2 : (v - 4294967296 * k) / 65536 mod 256 = v / 65536 mod 256).
  { replace (v - 4294967296 * k) with (v + (- 65536 * k) * 65536) by lia. rewrite Z.div_add by lia.
    replace (- 65536 * k) with ((- 256 * k) * 256) by lia. apply Z.mod_add; lia. }
  assert (E3 : (v - 4294967296 * k) / 16777216 mod 256 = v / 16777216 mod 256).
  { replace (v - 4294967296 * k) with (v + (- 256 * k) * 16777216) by lia. rewrite Z.div_add by lia.
    replace (- 256 * k) with ((- 1 * k) * 256) by lia. apply Z.mod_add; lia. }
  rewrite E0, E1, E2, E3. reflexivity.
Qed.
Definition norm_poly (p : Poly) : Poly := with_FirstLink p (u32 (pFirstLink p)).
Definition norm_link (l : Link) : Link := mkLink (u32 (lRef l)) (u32 (lNext l)) (lEdge l) (lSide l) (lBMin l) (lBMax l).
Definition norm_td (t : TileData) : TileData := set_tdLinks (set_tdPolys t (map norm_poly (tdPolys t))) (map norm_link (tdLinks t)).
Lemma flat_map_map : forall {A B C} (f : A -> B) (g : B -> list C) l, flat_map g (map f l) = flat_map (fun x => g (f x)) l.
Proof. intros A B C f g l. induction l; cbn; congruence. Qed.
Lemma enc_norm : forall t, enc_sections (norm_td t) = enc_sections t.
Proof.
  intros [v p l dm dv dt bv c]. unfold enc_sections, norm_td. cbn [set_tdLinks set_tdPolys tdVerts tdPolys tdLinks tdDMeshes tdDVerts tdDTris tdBv tdCons].
  rewrite !flat_map_map.
  assert (Ep : forall x, enc_poly (norm_poly x) = enc_poly x).
  { intros [fl vs ns fg vc ar]. unfold enc_poly, norm_poly. cbn [with_FirstLink pFirstLink pVerts pNeis pFlags pVertCount pAreaAndType]. now rewrite le32_u32. }
  assert (El : forall x, enc_link (norm_link x) = enc_link x).
  { intros [r n e s a b]. unfold enc_link, norm_link. cbn [lRef lNext lEdge lSide lBMin lBMax]. now rewrite !le32_u32. }
  rewrite (flat_map_ext _ _ Ep), (flat_map_ext _ _ El). reflexivity.
Qed.
Lemma norm_same : forall t, same_contents (norm_td t) t.
Proof.
  intros [v p l dm dv dt bv c]. unfold same_contents, norm_td. cbn [set_tdLinks set_tdPolys tdVerts tdPolys tdLinks tdDMeshes tdDVerts tdDTris tdBv tdCons].
  rewrite map_map, map_length. split; [reflexivity|]. split; [apply map_ext; now intros []|]. tauto.
Qed.
Lemma static_with : forall p q, static_poly p = static_poly q <-> with_FirstLink p 0 = with_FirstLink q 0.
Proof. intros [] []. unfold static_poly, with_FirstLink. cbn. split; intros H; inversion H; subst; reflexivity. Qed.
Lemma map_static_with : forall l k, map static_poly l = map static_poly k <-> map (fun p => with_FirstLink p 0) l = map (fun p => with_FirstLink p 0) k.
Proof.
  induction l as [|a l IH]; intros [|b k]; cbn; split; intros H; try discriminate; auto.
  - assert (static_poly a = static_poly b /\ map static_poly l = map static_poly k) as (H1 & H2) by (split; congruence).
    apply static_with in H1. apply IH in H2. congruence.
  - assert (with_FirstLink a 0 = with_FirstLink b 0 /\ map (fun p => with_FirstLink p 0) l = map (fun p => with_FirstLink p 0) k) as (H1 & H2) by (split; congruence).
    apply static_with in H1. apply IH in H2. congruence.
Qed.
Lemma same_contents_trans : forall a b c, same_contents a b -> same_contents b c -> same_contents a c.
Proof. unfold same_contents. intros a b c (A1 & A2 & A3 & A4 & A5 & A6 & A7 & A8) (B1 & B2 & B3 & B4 & B5 & B6 & B7 & B8). rewrite A1, A2, A3, A4, A5, A6, A7, A8. tauto. Qed.
Lemma same_contents_sym : forall a b, same_contents a b -> same_contents b a.
Proof. unfold same_contents. intros a b (A1 & A2 & A3 & A4 & A5 & A6 & A7 & A8). rewrite A1, A2, A3, A4, A5, A6, A7, A8. tauto. Qed.
Lemma frame_same : forall t t', frame t t' -> tdCons (tD t) = [] -> same_contents (tD t) (tD t').
Proof.
  intros t t' (_ & Hp & Hl & _ & Hv & H1 & H2 & H3 & H4 & H5) Hc. unfold same_contents. rewrite Hv by exact Hc. apply map_static_with in Hp.
  split; [reflexivity|]. split; [now symmetry|]. split; [now symmetry|]. split; [now symmetry|]. split; [now symmetry|]. split; [now symmetry|]. split; now symmetry.
Qed.
Lemma same_typed : forall a b, same_contents a b -> typed_tile a -> typed_tile0 (norm_td b).
Proof.
  intros a b (Ev & Ep & El & E1 & E2 & E3 & E4 & E5) (T1 & T2 & T3 & T4 & T5 & T6 & T7 & T8). unfold typed_tile0, norm_td.
  cbn [set_tdLinks set_tdPolys tdVerts tdPolys tdLinks tdDMeshes tdDVerts tdDTris tdBv tdCons]. rewrite <- Ev, <- E1, <- E2, <- E3, <- E4, <- E5.
  split; [exact T1|]. split; [|split; [|tauto]].
  - apply Forall_forall. intros p' Hp'. apply in_map_iff in Hp'. destruct Hp' as (p & <- & Hp).
    assert (Hin : In (with_FirstLink p 0) (map (fun p => with_FirstLink p 0) (tdPolys a))) by (rewrite Ep; now apply (in_map (fun p => with_FirstLink p 0))).
    apply in_map_iff in Hin. destruct Hin as (q & Eq & Hq). rewrite Forall_forall in T2. specialize (T2 q Hq).
    apply static_with in Eq. unfold static_poly in Eq. injection Eq as Q1 Q2 Q3 Q4 Q5. unfold typed_poly, norm_poly in *.
    cbn [with_FirstLink pFirstLink pVerts pNeis pFlags pVertCount pAreaAndType]. rewrite <- Q1, <- Q2, <- Q3, <- Q4, <- Q5.
    destruct T2 as (_ & T2). split; [apply u32_range|exact T2].
  - apply Forall_forall. intros l' Hl'. apply in_map_iff in Hl'. destruct Hl' as (l & <- & Hl). split; apply u32_range.
Qed.
Lemma same_counts : forall h a b, same_contents a b -> counts_match h a -> counts_match h b.
Proof.
  intros h a b (Ev & Ep & El & E1 & E2 & E3 & E4 & E5) H. assert (length (tdPolys a) = length (tdPolys b)) as Lp.
  { rewrite <- (map_length (fun p => with_FirstLink p 0)), Ep. apply map_length. }
  unfold counts_match, zlen in *. rewrite Ev, E1, E2, E3, E4, E5, Lp, El in H. exact H.
Qed.
Lemma same_bytes : forall a b, same_contents a b -> data_bytes a = data_bytes b.
Proof.
  intros a b (Ev & Ep & El & E1 & E2 & E3 & E4 & E5). assert (length (tdPolys a) = length (tdPolys b)) as Lp.
  { rewrite <- (map_length (fun p => with_FirstLink p 0)), Ep. apply map_length. }
  unfold data_bytes, zlen. rewrite Ev, E1, E2, E3, E4, E5, Lp, El. reflexivity.
Qed.
Lemma norm_counts : forall h t, counts_match h t -> counts_match h (norm_td t).
Proof. intros h t. apply same_counts, same_contents_sym, norm_same. Qed.

(** Writing a live tile: the reference, the size and data that unserializes to the same contents. *)
Lemma record_spec : forall m A i t h, Inv m A -> fits m A -> Forall (fun e => saveable (eData e)) A ->
  nth_error (mTiles m) i = Some t -> tHeader t = Some h ->
  let ref := encodePolyID (mBits m) (tSalt t) (Z.of_nat i) 0 in
  exists data, tile_record m i = Ok ((le32 ref ++ lei (tDataSize t)) ++ data) /\
    zlen data = tDataSize t /\ 100 <= tDataSize t < 2147483648 /\
    fit_data data h /\ (exists td, tile_unserialize h (skipn 100 data) = Ok td /\ same_contents td (tD t)).
Proof.
  intros m A i t h HI HF HS Ht Hh ref. pose proof (iv_tile _ _ HI i t h Ht Hh) as (_ & Hd & Hsz & _ & (td & Htd & F) & _).
  assert (Hin : In (entry_of m i t h) A) by (apply (iv_A _ _ HI); eauto 10).
  unfold fits in HF. rewrite Forall_forall in HF, HS. destruct (HF _ Hin) as (h' & Hh' & Em & Ev & td' & Htd' & Hml & Hoc & Hps).
  destruct (HS _ Hin) as (Hu8 & Hlt & Hcm). cbn [entry_of eData] in *. rewrite Hd in Hh'. apply Ok_inj in Hh'. subst h'. rewrite Htd in Htd'. apply Ok_inj in Htd'. subst td'.
  destruct (Hcm h td Hd Htd) as (Hc & Hb). clear HF HS Hcm. pose proof (header_typed _ Hu8 h Hd) as Hty.
  assert (Hu8' : Forall is_u8 (skipn 100 (tData t))).
  { apply Forall_forall. intros x Hx. rewrite Forall_forall in Hu8. apply Hu8. rewrite <- (firstn_skipn 100). apply in_app_iff. now right. }
  pose proof (tile_unserialize_typed _ Hu8' h td Htd) as Htt.
  pose proof (unserialize_lengths _ _ _ Htd) as (_ & _ & _ & Lc).
  assert (Hnc : tdCons td = []) by (destruct (tdCons td); [reflexivity|unfold zlen in Lc; cbn in Lc; lia]).
  pose proof (frame_same _ _ F Hnc) as Hsame. cbn [set_tD tD] in Hsame.
  assert (0 <= data_bytes td) as Hdb by (unfold data_bytes, zlen; lia).
  rewrite i32_id in Hsz by (unfold is_i32, zlen in *; lia).
  set (n := zlen (tData t)) in *.
  assert (Hsp : Forall shaped_poly (tdPolys (tD t))).
  { pose proof (same_typed _ _ Hsame Htt) as (_ & T2 & _). apply Forall_forall. intros p Hp. rewrite Forall_forall in T2.
    destruct (T2 (norm_poly p)) as (_ & A1 & _ & A2 & _); [cbn; now apply in_map|]. split; assumption. }
  destruct (serialize_sections (tD t) (n - 100) Hsp) as (Es & Ls); [rewrite <- (same_bytes _ _ Hsame); lia|].
  assert (Hnc' : tdCons (tD t) = []) by (destruct Hsame as (_ & _ & _ & _ & _ & _ & _ & E); congruence).
  rewrite Hnc' in Es, Ls. cbn [write_all bind] in Es. change (zlen (@nil OffMeshCon)) with 0 in Ls.
  assert (Hle : zlen (enc_sections (tD t)) <= n - 100) by (rewrite Ls, <- (same_bytes _ _ Hsame); lia).
  exists (enc_header h ++ W (n - 100) (enc_sections (tD t))).
  assert (L100 : zlen (enc_header h) = 100) by (destruct h as [? ? ? ? ? ? ? ? ? ? ? ? ? ? ? ? ? ? [[? ?] ?] [[? ?] ?] ?]; reflexivity).
  assert (L100' : length (enc_header h) = 100%nat) by (unfold zlen in L100; lia).
  assert (Hsk : skipn 100 (enc_header h ++ W (n - 100) (enc_sections (tD t))) = W (n - 100) (enc_sections (tD t))).
  { rewrite skipn_app, L100', Nat.sub_diag. rewrite skipn_all2 by lia. reflexivity. }
  split; [|split; [|split; [lia|]]].
  - unfold tile_record. apply tile_of_nth in Ht. rewrite Ht. cbn [bind]. rewrite Hsz. destruct (Z.eqb_spec n 0); [lia|].
    unfold TileRef. rewrite (base_of_tile _ _ _ Ht). cbn [bind]. rewrite tileHeader_serialize_enc by (rewrite zlen_repeat; lia). change (skipn 8 (repeat 0 8)) with (@nil Z). rewrite app_nil_r. cbn [bind].
    unfold make_len. destruct (Z.ltb_spec n 0); [lia|]. cbn [bind]. unfold hdr_of. rewrite Hh. cbn [of_option bind].
    rewrite header_serialize_enc by (rewrite zlen_repeat; lia). cbn [bind]. rewrite skipn_repeat.
    rewrite skipn_app, L100', Nat.sub_diag, (skipn_all2 (enc_header h)) by lia. cbn [app skipn].
    replace (Z.to_nat n - 100)%nat with (Z.to_nat (n - 100)) by lia. rewrite Es. cbn [bind].
    rewrite firstn_app, L100', Nat.sub_diag, firstn_all2 by lia. cbn [firstn]. rewrite app_nil_r. reflexivity.
  - rewrite zlen_app, L100, W_zlen by lia. lia.
  - assert (Hun : tile_unserialize h (W (n - 100) (enc_sections (tD t))) = Ok (norm_td (tD t))).
    { unfold W. rewrite <- enc_norm. assert (enc_sections (norm_td (tD t)) = enc_tile (norm_td (tD t))) as Ee.
      { unfold enc_tile. cbn [norm_td set_tdLinks set_tdPolys tdCons]. rewrite Hnc'. cbn. now rewrite app_nil_r. }
      rewrite Ee, tile_unserialize_enc0; [|now apply (same_typed td)|apply norm_counts; now apply (same_counts h td)].
      cbn [norm_td set_tdLinks set_tdPolys tdCons]. rewrite Hnc'. reflexivity. }
    rewrite Hsk. split; [|exists (norm_td (tD t)); split; [exact Hun|apply norm_same]].
    split; [now apply header_unserialize_enc|]. split; [exact Em|]. split; [exact Ev|]. exists (norm_td (tD t)). rewrite Hsk. split; [exact Hun|]. split; [exact Hml|]. split; [exact Hoc|].
    cbn [norm_td set_tdLinks set_tdPolys tdVerts tdPolys]. apply Forall_forall. intros p' Hp'. apply in_map_iff in Hp'. destruct Hp' as (p & <- & Hp).
    destruct Hsame as (Evv & Epp & _). assert (Hi2 : In (with_FirstLink p 0) (map (fun p => with_FirstLink p 0) (tdPolys td))) by (rewrite Epp; now apply (in_map (fun p => with_FirstLink p 0))).
    apply in_map_iff in Hi2. destruct Hi2 as (q & Eq & Hq). rewrite Forall_forall in Hps. specialize (Hps q Hq). apply static_with in Eq. rewrite <- Evv.
    apply (fit_poly_static _ q); [|exact Hps]. rewrite Eq. reflexivity.
Qed.

(** ** The loop of Decode *)
Definition kept (t t' : MeshTile) : Prop :=
  tHeader t' = tHeader t /\ (tHeader t <> None -> tSalt t' = tSalt t /\ same_contents (tD t') (tD t)).
Definition is_live (m : NavMesh) (i : nat) : bool :=
  match nth_error (mTiles m) i with Some t => match tHeader t with Some _ => true | None => false end | None => false end.
Lemma kept_trans : forall a b c, kept a b -> kept b c -> kept a c.
Proof.
  intros a b c (H1 & H2) (H3 & H4). split; [congruence|]. intros H. destruct (H2 H) as (S1 & C1).
  destruct H4 as (S2 & C2); [congruence|]. split; [congruence|]. eapply same_contents_trans; eassumption.
Qed.
Lemma kept_refl : forall a, kept a a.
Proof. intros a. split; auto. intros _. split; auto. unfold same_contents. tauto. Qed.

Lemma free_slot_size : forall m A i t, Inv m A -> nth_error (mTiles m) i = Some t -> tHeader t = None -> tDataSize t = 0.
Proof.
  intros m A i t HI Ht Hn. destruct (iv_view _ _ HI) as (free & bk & HV). assert (Hi : In i free).
  { apply (free_iff m A free bk i HI HV). split; [apply nth_error_Some; congruence|]. intros h (t0 & Ht0 & Hh). congruence. }
  destruct HV as (_ & _ & _ & _ & Hf & _). destruct (Hf i Hi) as (t0 & Ht0 & _ & Hs). congruence.
Qed.
Lemma live_loc : forall m A i j t s h g, Inv m A -> nth_error (mTiles m) i = Some t -> nth_error (mTiles m) j = Some s ->
  tHeader t = Some h -> tHeader s = Some g -> loc h = loc g -> i = j.
Proof.
  intros m A i j t s h g HI Ht Hs Hh Hg E. destruct (iv_view _ _ HI) as (free & bk & HV).
  assert (Li : live m i h) by (exists t; auto). assert (Lj : live m j g) by (exists s; auto).
  pose proof (live_in_bucket _ _ _ _ _ HV Li) as Bi. pose proof (live_in_bucket _ _ _ _ _ HV Lj) as Bj.
  destruct HV as (_ & _ & _ & _ & _ & _ & Hu). exact (Hu i j h g Bi Bj Li Lj E).
Qed.

(** Loading one tile under the reference it had. *)
Lemma load_one : forall m A m' A' i t h data td, Inv m A -> Run fits m' A' -> mParams m' = mParams m ->
  nth_error (mTiles m) i = Some t -> tHeader t = Some h ->
  (exists t', nth_error (mTiles m') i = Some t' /\ tHeader t' = None) -> ~ In (loc h) (map eLoc A') ->
  fit_data data h -> tile_unserialize h (skipn 100 data) = Ok td -> same_contents td (tD t) ->
  let ref := encodePolyID (mBits m) (tSalt t) (Z.of_nat i) 0 in
  exists m'', AddTile m' data ref = Ok (m'', Success, ref) /\ Run fits m'' (mkEntry (loc h) ref data :: A') /\ mParams m'' = mParams m /\
    length (mTiles m'') = length (mTiles m') /\
    (exists t'', nth_error (mTiles m'') i = Some t'' /\ kept t t'') /\
    (forall k s, k <> i -> nth_error (mTiles m') k = Some s -> exists s', nth_error (mTiles m'') k = Some s' /\ kept s s').
Proof.
  intros m A m' A' i t h data td HI HR EP Ht Hh Hfree Hloc HD Htd Hsame ref.
  pose proof (Run_inv _ _ _ HR) as HI'. assert (EB : mBits m' = mBits m).
  { destruct (iv_params _ _ HI) as (_ & -> & _). destruct (iv_params _ _ HI') as (_ & -> & _). now rewrite EP. }
  destruct (inv_base m A i t HI Ht) as (D1 & D2 & D3). fold ref in D1, D2, D3. rewrite <- EB in D1, D2.
  destruct (add_result_ref m' A' data h ref HR HD Hloc D3) as (G & _).
  destruct G as (m'' & E). { destruct Hfree as (t' & Ht' & Hn). exists t'. split; [|exact Hn]. rewrite D1. apply get_ok. rewrite Nat2Z.id. split; [lia|exact Ht']. }
  rewrite D1, D2, EB in E. fold ref in E. exists m''. split; [exact E|].
  destruct HD as (Hdh & HD'). assert (HR' : Run fits m'' (mkEntry (loc h) ref data :: A')).
  { refine (Run_add fits _ _ _ _ _ _ _ HR _ E Hdh _).
    - right. rewrite D2. pose proof (iv_salt _ _ HI i t Ht) as Hs. unfold salt_ok in Hs. lia.
    - constructor; [|apply (Run_fits m' A' HR)]. exists h. cbn [eData]. split; assumption. }
  split; [exact HR'|]. destruct (iv_view _ _ HI') as (free & bk & HV).
  destruct (AddTile_spec _ _ _ _ _ _ _ _ (iv_ok _ _ HI') HV E) as [(Hbad & _)|(_ & hdr & i' & f1 & f2 & bk' & t0 & t' & X1 & X2 & X3 & X4 & X5 & X6 & X7 & X8 & X9 & X10 & X11 & X12 & X13 & X14 & X15 & X16 & X17 & X18)]; [contradiction|].
  rewrite X1 in Hdh. apply Ok_inj in Hdh. subst hdr.
  destruct (X18 D3) as (Ei & _). assert (i' = i) as ->.
  { rewrite Ei, D1. pose proof (inv_dec_tile _ _ ref HI') as Hd. rewrite D1 in Hd. rewrite i32_id by (unfold is_i32; lia). apply Nat2Z.id. }
  split; [rewrite (fixed_params _ _ X5); exact EP|]. split; [exact X6|]. split.
  - exists t'. split; [exact X10|]. destruct X11 as (Y1 & Y2 & _ & _ & (td' & Y3 & Y4) & _). split; [congruence|]. intros _.
    assert (Es : tSalt t' = tSalt t). { rewrite X13. destruct (Z.eqb_spec ref 0); [contradiction|exact D2]. }
    split; [exact Es|]. rewrite X12, Htd in Y3. apply Ok_inj in Y3. subst td'.
    assert (tdCons td = []) as Hnc. { destruct HD' as (_ & _ & td1 & Z1 & _ & Z2 & _). rewrite Htd in Z1. apply Ok_inj in Z1. subst td1.
      pose proof (unserialize_lengths _ _ _ Htd) as (_ & _ & _ & Lc). destruct (tdCons td); [reflexivity|unfold zlen in Lc; cbn in Lc; lia]. }
    pose proof (frame_same _ _ Y4 Hnc) as Hf. cbn [set_tD tD] in Hf. eapply same_contents_trans; [|exact Hsame]. now apply same_contents_sym.
  - intros k s Hk Hs. destruct (X15 k s Hk Hs) as (s' & Hs' & (F & _)). exists s'. split; [exact Hs'|]. destruct (frameN_fields _ _ F) as (F1 & F2 & _).
    split; [exact F2|]. intros Hl. split; [exact F1|]. destruct (tHeader s) as [hs|] eqn:Ehs; [|contradiction].
    destruct (inv_fitM m' A' HI' (Run_fits m' A' HR) k s hs Hs Ehs) as ((_ & _ & Hc & _) & _). apply same_contents_sym. exact (frame_same _ _ F Hc).
Qed.

Lemma ReadFull_one : forall a b n, length a = n -> (0 < length b)%nat -> ReadFull [a ++ b] n = Ok (Some (a, [b])).
Proof.
  intros a b n Ha Hb. unfold ReadFull. cbn [length read_full]. destruct n as [|n]; [destruct a; [|discriminate]|].
  - cbn [app]. reflexivity.
  - destruct (Nat.leb_spec (length (a ++ b)) (S n)) as [H|H]; [rewrite app_length in H; lia|].
    rewrite firstn_app, skipn_app, Ha, Nat.sub_diag, firstn_all2, skipn_all2 by lia. cbn [firstn skipn app]. now rewrite app_nil_r.
Qed.
Lemma read_once_one : forall a b n, length a = n -> exists r, read_once [a ++ b] n = Some (a, r) /\ (r = [b] \/ b = [] /\ r = []).
Proof.
  intros a b n Ha. cbn [read_once]. destruct (Nat.leb_spec (length (a ++ b)) n) as [H|H]; rewrite app_length in H.
  - destruct b; [|cbn in H; lia]. exists []. rewrite app_nil_r, Ha, Nat.sub_diag. cbn [repeat]. rewrite app_nil_r. auto.
  - exists [b]. rewrite firstn_app, skipn_app, Ha, Nat.sub_diag, firstn_all2, skipn_all2 by lia. cbn [firstn skipn app]. rewrite app_nil_r. auto.
Qed.

Lemma decode_loop : forall m A, Inv m A -> fits m A -> Forall (fun e => saveable (eData e)) A ->
  forall l m' A' bytes r, NoDup l -> Run fits m' A' -> mParams m' = mParams m -> length (mTiles m') = length (mTiles m) ->
  (forall i, In i l -> exists t', nth_error (mTiles m') i = Some t' /\ tHeader t' = None) ->
  (forall i t h, In i l -> nth_error (mTiles m) i = Some t -> tHeader t = Some h -> ~ In (loc h) (map eLoc A')) ->
  tile_records m (map Z.of_nat l) = Ok bytes -> (r = [bytes] \/ bytes = [] /\ r = []) ->
  exists m'' A'', decode_tiles (length (filter (is_live m) l)) m' r = Ok (Some m'') /\ Run fits m'' A'' /\ mParams m'' = mParams m /\
    length (mTiles m'') = length (mTiles m) /\
    (forall i t, In i l -> nth_error (mTiles m) i = Some t -> exists t'', nth_error (mTiles m'') i = Some t'' /\ kept t t'') /\
    (forall i t', ~ In i l -> nth_error (mTiles m') i = Some t' -> exists t'', nth_error (mTiles m'') i = Some t'' /\ kept t' t'').
Proof.
  intros m A HI HF HS. induction l as [|i l IH]; intros m' A' bytes r Hnd HR EP EL Hfree Hloc Hrec Hr.
  - exists m', A'. cbn [filter length decode_tiles]. split; [reflexivity|]. split; [exact HR|]. split; [exact EP|]. split; [exact EL|].
    split; [intros ? ? []|]. intros k t' _ Hk. exists t'. split; [exact Hk|apply kept_refl].
  - inversion Hnd as [|? ? Hni Hnd']; subst. cbn [map tile_records] in Hrec.
    apply bind_ok in Hrec. destruct Hrec as (t & Ht & Hrec). apply bind_ok in Hrec. destruct Hrec as (rec & Erec & Hrec).
    apply bind_ok in Hrec. destruct Hrec as (rest & Erest & Hrec). apply Ok_inj in Hrec. rewrite Nat2Z.id in Erec.
    apply get_ok in Ht. rewrite Nat2Z.id in Ht. destruct Ht as (_ & Ht).
    destruct (tHeader t) as [h|] eqn:Eh.
    + destruct (record_spec m A i t h HI HF HS Ht Eh) as (data & Er & Ld & Lb & HD & td & Htd & Hsame).
      rewrite Erec in Er. apply Ok_inj in Er. subst rec. set (ref := encodePolyID (mBits m) (tSalt t) (Z.of_nat i) 0) in *.
      destruct (load_one m A m' A' i t h data td HI HR EP Ht Eh (Hfree i (or_introl eq_refl)) (Hloc i t h (or_introl eq_refl) Ht Eh) HD Htd Hsame) as (m1 & Eadd & HR1 & EP1 & EL1 & (t1 & Ht1 & K1) & Hoth). fold ref in Eadd, HR1.
      set (size := tDataSize t) in *. assert (Ldn : length data = Z.to_nat size) by (unfold zlen in Ld; lia).
      destruct (read_once_one data rest (Z.to_nat size) Ldn) as (r1 & Er1 & Hr1).
      destruct (IH m1 (mkEntry (loc h) ref data :: A') rest r1 Hnd' HR1 EP1) as (m2 & A2 & Edec & HR2 & EP2 & EL2 & K2 & O2); [congruence| | |exact Erest|exact Hr1|].
      { intros k Hk. destruct (Hfree k (or_intror Hk)) as (s & Hs & Hsn). assert (k <> i) as Hki by (intros ->; contradiction).
        destruct (Hoth k s Hki Hs) as (s' & Hs' & (E1 & _)). exists s'. split; [exact Hs'|congruence]. }
      { intros k s g Hk Hs Hg Hin. cbn [map eLoc] in Hin. destruct Hin as [Heq|Hin].
        - apply Hni. rewrite (live_loc m A i k t s h g HI Ht Hs Eh Hg Heq). exact Hk.
        - exact (Hloc k s g (or_intror Hk) Hs Hg Hin). }
      exists m2, A2. split; [|split; [exact HR2|split; [exact EP2|split; [exact EL2|split]]]].
      * cbn [filter]. unfold is_live at 1. rewrite Ht, Eh. cbn [length decode_tiles].
        assert (Hrb : r = [(le32 ref ++ lei size) ++ (data ++ rest)]).
        { destruct Hr as [->|(E0 & _)]; [rewrite <- Hrec, <- app_assoc; reflexivity|]. rewrite E0 in Hrec. destruct data; [unfold zlen in Ld; cbn in Ld; lia|discriminate]. }
        rewrite Hrb, ReadFull_one; [|reflexivity|rewrite app_length; lia]. cbn [bind].
        destruct (inv_ref m A i t 0 HI Ht) as (_ & Rnz & Ru). { destruct (inv_bits m A HI) as (_ & _ & _ & Hp & _). split; [lia|]. apply Z.pow_pos_nonneg; lia. }
        fold ref in Rnz, Ru. rewrite <- (app_nil_r (le32 ref ++ lei size)), tileHeader_decode_enc by (auto; unfold is_i32; lia). cbn [bind].
        destruct (Z.eqb_spec ref 0); [contradiction|]. destruct (Z.eqb_spec size 0); [lia|]. cbn [orb].
        unfold make_len. destruct (Z.ltb_spec size 0); [lia|]. cbn [bind]. rewrite Er1. rewrite Eadd. cbn [bind].
        change (negb (Z.land Success Failure =? 0)) with false. exact Edec.
      * intros k s [<-|Hk] Hs; [|exact (K2 k s Hk Hs)]. rewrite Ht in Hs. injection Hs as <-. destruct (O2 i t1 Hni Ht1) as (t2 & Ht2 & K). exists t2. split; [exact Ht2|]. eapply kept_trans; eassumption.
      * intros k s Hk Hs. assert (k <> i /\ ~ In k l) as (Hki & Hkl) by (split; intros H; apply Hk; [now left|now right]).
        destruct (Hoth k s Hki Hs) as (s1 & Hs1 & Ks). destruct (O2 k s1 Hkl Hs1) as (s2 & Hs2 & Ks2). exists s2. split; [exact Hs2|]. eapply kept_trans; eassumption.
    + assert (rec = []) as ->.
      { unfold tile_record in Erec. apply tile_of_nth in Ht as Ht'. rewrite Ht' in Erec. cbn [bind] in Erec. rewrite (free_slot_size m A i t HI Ht Eh) in Erec. cbn in Erec. congruence. }
      cbn [app] in Hrec. subst rest. destruct (IH m' A' bytes r Hnd' HR EP EL) as (m2 & A2 & Edec & HR2 & EP2 & EL2 & K2 & O2); [| |exact Erest|exact Hr|].
      { intros k Hk. apply Hfree. now right. } { intros k s g Hk. apply Hloc. now right. }
      exists m2, A2. split; [|split; [exact HR2|split; [exact EP2|split; [exact EL2|split]]]].
      * cbn [filter]. unfold is_live at 1. rewrite Ht, Eh. exact Edec.
      * intros k s [<-|Hk] Hs; [|exact (K2 k s Hk Hs)]. rewrite Ht in Hs. injection Hs as <-. destruct (Hfree i (or_introl eq_refl)) as (t' & Ht' & Hn').
        destruct (O2 i t' Hni Ht') as (t2 & Ht2 & (K & _)). exists t2. split; [exact Ht2|]. split; [congruence|]. rewrite Eh. congruence.
      * intros k s Hk Hs. apply O2; [|exact Hs]. intros H. apply Hk. now right.
Qed.

(** ** ToWriter, Size and Decode *)
Lemma Init_total : forall p, good_params p -> exists m, Init p = Ok (m, Success).
Proof.
  intros p (Ht & Hp & Hs). unfold Init. rewrite i32_id by (unfold is_i32; lia).
  pose proof (Z.log2_up_nonneg (npMaxTiles p)). pose proof (Z.log2_up_nonneg (npMaxPolys p)).
  assert (Hq : 0 <= npMaxTiles p / 4) by (apply Z.div_pos; lia).
  assert (Hq2 : npMaxTiles p / 4 <= npMaxTiles p) by (apply Z.div_le_upper_bound; lia).
  assert (Hl : Z.log2_up (npMaxTiles p / 4) <= 24) by (pose proof (Z.log2_up_le_mono _ _ Hq2); lia).
  assert (Hn : 0 <= NextPow2 (npMaxTiles p / 4) <= 2 ^ 24).
  { unfold NextPow2. destruct (_ =? 0); [lia|]. pose proof (Z.log2_up_nonneg (npMaxTiles p / 4)).
    pose proof (Z.pow_le_mono_r 2 _ _ ltac:(lia) Hl). assert (0 < 2 ^ Z.log2_up (npMaxTiles p / 4)) by (apply Z.pow_pos_nonneg; lia).
    rewrite u32_id by (unfold is_u32; lia). lia. }
  rewrite i32_id by (unfold is_i32; lia). unfold make_len. destruct (Z.ltb_spec (npMaxTiles p) 0); [lia|]. cbn [bind].
  destruct (Z.ltb_spec (if NextPow2 (npMaxTiles p / 4) =? 0 then 1 else NextPow2 (npMaxTiles p / 4)) 0) as [Hb|Hb]; [destruct (_ =? 0) in Hb; lia|]. cbn [bind].
  assert (Es : init_status (init_bits (npMaxTiles p) (npMaxPolys p)) = Success) by (apply init_status_iff; lia).
  rewrite Es. eauto.
Qed.
Lemma records_total : forall m A, Inv m A -> fits m A -> Forall (fun e => saveable (eData e)) A ->
  forall l, (forall i, In i l -> (i < length (mTiles m))%nat) -> exists bytes, tile_records m (map Z.of_nat l) = Ok bytes.
Proof.
  intros m A HI HF HS l. induction l as [|i l IH]; intros Hl; [eexists; reflexivity|].
  destruct (nth_error_in_range _ _ (Hl i (or_introl eq_refl))) as (t & Ht). destruct IH as (rest & Er); [intros k Hk; apply Hl; now right|].
  cbn [map tile_records]. assert (get (mTiles m) (Z.of_nat i) = Ok t) as -> by (apply get_ok; rewrite Nat2Z.id; split; [lia|exact Ht]). cbn [bind]. rewrite Nat2Z.id, Er.
  destruct (tHeader t) as [h|] eqn:Eh.
  - destruct (record_spec m A i t h HI HF HS Ht Eh) as (data & -> & _). cbn [bind]. eauto.
  - unfold tile_record. apply tile_of_nth in Ht as Ht'. rewrite Ht'. cbn [bind]. rewrite (free_slot_size m A i t HI Ht Eh). cbn [Z.eqb bind]. eauto.
Qed.
Lemma i32_add : forall a b, i32 (i32 a + i32 b) = i32 (a + b).
Proof.
  intros a b. unfold i32. f_equal.
  replace ((a + 2147483648) mod 4294967296 - 2147483648 + ((b + 2147483648) mod 4294967296 - 2147483648) + 2147483648)
    with ((a + 2147483648) mod 4294967296 + (b + 2147483648) mod 4294967296 - 2147483648) by lia.
  rewrite (Z.mod_eq (a + 2147483648)), (Z.mod_eq (b + 2147483648)) by lia.
  set (x := (a + 2147483648) / 4294967296). set (y := (b + 2147483648) / 4294967296).
  replace (a + 2147483648 - 4294967296 * x + (b + 2147483648 - 4294967296 * y) - 2147483648) with (a + b + 2147483648 + (- x - y) * 4294967296) by lia.
  apply Z.mod_add. lia.
Qed.
Lemma sizes : forall m A, Inv m A -> fits m A -> Forall (fun e => saveable (eData e)) A ->
  forall l bytes s k, (forall i, In i l -> (i < length (mTiles m))%nat) -> tile_records m (map Z.of_nat l) = Ok bytes ->
  0 <= k -> k + zlen l < 4294967296 ->
  foldM (fun s i => let* t := get (mTiles m) i in Ok (if tDataSize t =? 0 then s else i32 (s + i32 (8 + tDataSize t)))) (map Z.of_nat l) (i32 s) = Ok (i32 (s + zlen bytes)) /\
  foldM (fun n i => let* t := get (mTiles m) i in Ok (if tDataSize t =? 0 then n else u32 (n + 1))) (map Z.of_nat l) k = Ok (k + zlen (filter (is_live m) l)).
Proof.
  intros m A HI HF HS l. induction l as [|i l IH]; intros bytes s k Hl Hrec Hk Hb.
  - cbn in Hrec. apply Ok_inj in Hrec. subst bytes. cbn [map foldM filter]. rewrite !zlen_nil, !Z.add_0_r. auto.
  - destruct (nth_error_in_range _ _ (Hl i (or_introl eq_refl))) as (t & Ht). cbn [map tile_records foldM] in *.
    assert (Eg : get (mTiles m) (Z.of_nat i) = Ok t) by (apply get_ok; rewrite Nat2Z.id; split; [lia|exact Ht]). rewrite Eg in *. cbn [bind] in *. rewrite Nat2Z.id in Hrec.
    apply bind_ok in Hrec. destruct Hrec as (rec & Erec & Hrec). apply bind_ok in Hrec. destruct Hrec as (rest & Erest & Hrec). apply Ok_inj in Hrec. subst bytes.
    assert (Hl' : forall j, In j l -> (j < length (mTiles m))%nat) by (intros j Hj; apply Hl; now right).
    rewrite zlen_cons in Hb. cbn [filter]. unfold is_live at 1. rewrite Ht. destruct (tHeader t) as [h|] eqn:Eh.
    + destruct (record_spec m A i t h HI HF HS Ht Eh) as (data & Er & Ld & Lb & _). rewrite Erec in Er. apply Ok_inj in Er. subst rec.
      destruct (Z.eqb_spec (tDataSize t) 0); [lia|]. rewrite i32_add. rewrite u32_id by (unfold is_u32; pose proof (zlen_nonneg l); lia).
      destruct (IH rest (s + (8 + tDataSize t)) (k + 1) Hl' Erest ltac:(lia) ltac:(lia)) as (E1 & E2).
      rewrite E1, E2. rewrite !zlen_app, Ld, zlen_cons. unfold lei. rewrite !zlen_le32. split; f_equal; [f_equal|]; lia.
    + assert (rec = []) as ->.
      { unfold tile_record in Erec. apply tile_of_nth in Ht as Ht'. rewrite Ht' in Erec. cbn [bind] in Erec. rewrite (free_slot_size m A i t HI Ht Eh) in Erec. cbn in Erec. congruence. }
      rewrite (free_slot_size m A i t HI Ht Eh). cbn [Z.eqb app]. apply IH; auto. lia.
Qed.

Lemma filter_length_le' : forall {A} (f : A -> bool) l, (length (filter f l) <= length l)%nat.
Proof. intros A f l. induction l as [|a l IH]; cbn; [lia|]. destruct (f a); cbn; lia. Qed.
Lemma zlen_enc_params : forall p, length (enc_params p) = 28%nat.
Proof. intros [[[? ?] ?] ? ? ? ?]. reflexivity. Qed.

Theorem save_load : forall m A, Run fits m A -> Forall (fun e => saveable (eData e)) A -> typed_params (mParams m) ->
  exists bytes m' A', ToWriter m = Ok bytes /\ Size m = Ok (i32 (zlen bytes)) /\ Decode [bytes] = Ok (Some m') /\
    Run fits m' A' /\ mParams m' = mParams m /\ length (mTiles m') = length (mTiles m) /\
    (forall i t, nth_error (mTiles m) i = Some t -> exists t', nth_error (mTiles m') i = Some t' /\ kept t t').
Proof.
  intros m A HR HS HP. pose proof (Run_inv _ _ _ HR) as HI. pose proof (Run_fits m A HR) as HF.
  destruct (iv_params _ _ HI) as (HG & EB & EL). destruct (iv_ok _ _ HI) as (EM & _).
  destruct (inv_bits _ _ HI) as (_ & _ & _ & _ & _ & Hsz & _).
  set (n := length (mTiles m)). assert (Hseq : zseq (Z.to_nat (mMaxTiles m)) = map Z.of_nat (seq 0 n)).
  { rewrite EM. unfold zlen. rewrite Nat2Z.id. reflexivity. }
  assert (Hin : forall i, In i (seq 0 n) -> (i < length (mTiles m))%nat) by (intros i Hi; apply in_seq in Hi; lia).
  destruct (records_total m A HI HF HS (seq 0 n) Hin) as (rs & Ers).
  assert (Ln : zlen (seq 0 n) = zlen (mTiles m)) by (unfold zlen; rewrite seq_length; reflexivity).
  destruct (sizes m A HI HF HS (seq 0 n) rs 0 0 Hin Ers ltac:(lia) ltac:(lia)) as (Esz & Ecount). change (i32 0) with 0 in Esz.
  destruct (Init_total (mParams m) HG) as (m0 & Ei).
  assert (HR0 : Run fits m0 []) by exact (Run_init fits _ _ _ HG Ei).
  destruct (Init_view _ _ _ Ei) as (_ & _ & EP0 & _ & L0 & Hfresh); [destruct HG; lia|].
  set (head := le32 navMeshSetMagic ++ le32 navMeshSetVersion ++ le32 (0 + zlen (filter (is_live m) (seq 0 n))) ++ enc_params (mParams m)).
  assert (Lh : length head = 40%nat) by (unfold head; rewrite !app_length, zlen_enc_params; reflexivity).
  assert (Hcnt : 0 <= zlen (filter (is_live m) (seq 0 n)) <= zlen (mTiles m)).
  { split; [apply zlen_nonneg|]. rewrite <- Ln. unfold zlen. pose proof (filter_length_le' (is_live m) (seq 0 n)). lia. }
  assert (Hd : exists r, (ReadFull [head ++ rs] 40 = Ok (Some (head, r))) /\ (r = [rs] \/ rs = [] /\ r = [])).
  { destruct rs as [|b rs].
    - exists []. rewrite app_nil_r. unfold ReadFull. cbn [length read_full]. rewrite Lh. cbn. rewrite app_nil_r. auto.
    - exists [b :: rs]. rewrite ReadFull_one; auto. cbn. lia. }
  destruct Hd as (r & Erd & Hr).
  destruct (decode_loop m A HI HF HS (seq 0 n) m0 [] rs r (seq_NoDup _ _) HR0 EP0) as (m' & A' & Edec & HR' & EP' & EL' & K & _).
  - rewrite L0, <- EL. unfold zlen. apply Nat2Z.id.
  - intros i Hi. apply Hin in Hi. destruct (nth_error_in_range (mTiles m0) i) as (t' & Ht'); [rewrite L0, <- EL; unfold zlen; rewrite Nat2Z.id; exact Hi|].
    exists t'. split; [exact Ht'|]. destruct (Hfresh _ _ Ht') as (x & ->). reflexivity.
  - intros i t h _ _ _ [].
  - exact Ers.
  - exact Hr.
  - exists (head ++ rs), m', A'. split; [|split; [|split; [|split; [exact HR'|split; [exact EP'|split; [exact EL'|]]]]]].
    + unfold ToWriter, live_tiles. rewrite Hseq, Ecount. cbn [bind]. rewrite setHeader_serialize_enc by (rewrite zlen_repeat; lia). cbn [bind]. rewrite Ers. cbn [bind].
      change (skipn 40 (repeat 0 40)) with (@nil Z). rewrite app_nil_r. reflexivity.
    + unfold Size. rewrite Hseq, Esz. cbn [bind Z.add]. rewrite zlen_app. replace (zlen head) with 40 by (unfold zlen; rewrite Lh; reflexivity).
      rewrite <- (i32_add 40 (zlen rs)). rewrite (i32_id 40) by (unfold is_i32; lia). reflexivity.
    + unfold Decode. rewrite Erd. cbn [bind]. unfold head. rewrite <- (app_nil_r (le32 navMeshSetMagic ++ _)), setHeader_decode_enc by (auto; unfold is_u32, navMeshSetMagic, navMeshSetVersion; lia).
      cbn [bind]. rewrite !Z.eqb_refl. cbn [negb]. rewrite Ei. cbn [bind]. change (StatusFailed Success) with false.
      replace (Z.to_nat (0 + zlen (filter (is_live m) (seq 0 n)))) with (length (filter (is_live m) (seq 0 n))) by (unfold zlen; lia). exact Edec.
    + intros i t Ht. apply (K i t); [|exact Ht]. apply in_seq. split; [lia|]. cbn. apply nth_error_Some. congruence.
Qed.
