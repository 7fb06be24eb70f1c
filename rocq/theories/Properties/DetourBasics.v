(** C01-C06, C17, C61: status words, packed fields, filters, box tests, references, sides. *)
From Coq Require Import ZArith Bool List Lia.
From Verif.Base Require Import Res GoNum Bits F32.
From Verif.Model Require Import Status Poly Bounds PolyRef.
From Verif.Proofs Require Import BasicsProofs PolyRefProofs.
Import ListNotations.
Open Scope Z_scope.

(** ** C01 Status words *)

(** A status made of one base value and any detail bits answers the three base
    questions according to its base. *)
Theorem C01_status_base : forall base d,
  In base [Failure; Success; InProgress] -> 0 <= d <= StatusDetailMask ->
  (StatusSucceed (Z.lor base d) = true <-> base = Success) /\
  (StatusFailed (Z.lor base d) = true <-> base = Failure) /\
  (StatusInProgress (Z.lor base d) = true <-> base = InProgress).
Proof. exact status_base. Qed.

(** Or-ing details into any word changes none of the base answers. *)
Theorem C01_status_detail_neutral : forall s d, 0 <= d <= StatusDetailMask ->
  StatusSucceed (Z.lor s d) = StatusSucceed s /\
  StatusFailed (Z.lor s d) = StatusFailed s /\
  StatusInProgress (Z.lor s d) = StatusInProgress s.
Proof. exact status_detail_neutral. Qed.

(** A detail question is answered by the common bits of question and details put in. *)
Theorem C01_status_detail : forall base d q,
  In base [Failure; Success; InProgress] ->
  0 <= d <= StatusDetailMask -> 0 <= q <= StatusDetailMask ->
  (StatusDetail (Z.lor base d) q = true <->
   exists i, 0 <= i /\ Z.testbit d i = true /\ Z.testbit q i = true).
Proof. exact status_detail. Qed.

Example C01_example :
  let s := Z.lor Success (Z.lor PartialResult BufferTooSmall) in
  In Success [Failure; Success; InProgress] /\
  0 <= Z.lor PartialResult BufferTooSmall <= StatusDetailMask /\
  StatusSucceed s = true /\ StatusFailed s = false /\
  StatusDetail s PartialResult = true /\ StatusDetail s OutOfNodes = false.
Proof. vm_compute. intuition congruence. Qed.

(** ** C61 Status messages *)

(** The message of a failed status with a single detail names that detail, for
    the details that have a message. *)
Theorem C61_failure_message : forall d m,
  In (d, m) [(WrongMagic, msg_wrong_magic); (WrongVersion, msg_wrong_version);
             (OutOfMemory, msg_out_of_memory); (InvalidParam, msg_invalid_param);
             (OutOfNodes, msg_out_of_nodes); (PartialResult, msg_partial_result)] ->
  status_Error (Z.lor Failure d) = m.
Proof.
  intros d m H. simpl in H.
  repeat (destruct H as [H|H]; [inversion H; subst; reflexivity|]). destruct H.
Qed.

(** A status that is not failed never has a failure message, and conversely. *)
Theorem C61_no_false_failure : forall s,
  (status_Error s = msg_success \/ status_Error s = msg_in_progress) <-> StatusFailed s = false.
Proof.
  intros s. unfold status_Error, StatusFailed.
  destruct (Z.land s Failure =? 0) eqn:E; simpl.
  - destruct (s =? InProgress); intuition.
  - split; [|discriminate]. cbv zeta.
    repeat match goal with |- context [if ?c then _ else _] => destruct c end;
      intros [H|H]; discriminate H.
Qed.

(** Refuted: an operation in progress that carries a detail is reported as "success"
    (the code compares the whole word with InProgress). *)
Theorem C61_in_progress_message_refuted :
  exists s, StatusInProgress s = true /\ StatusFailed s = false /\ status_Error s = msg_success.
Proof. exists (Z.lor InProgress OutOfNodes). vm_compute. auto. Qed.

(** ** C02 Area and type *)

Theorem C02_area_type_fields : forall p a t, is_u8 (pAreaAndType p) ->
  Area (SetArea p a) = a mod 64 /\ Type_ (SetArea p a) = Type_ p /\
  Type_ (SetType p t) = t mod 4 /\ Area (SetType p t) = Area p /\
  is_u8 (pAreaAndType (SetArea p a)) /\ is_u8 (pAreaAndType (SetType p t)).
Proof.
  intros p a t Hp. repeat split; auto using area_set_area, type_set_area, type_set_type, area_set_type;
    first [apply set_area_byte; assumption | apply set_type_byte; assumption].
Qed.

(** After any history of setter calls, area and type are the last values asked for. *)
Theorem C02_area_type_history : forall l p, is_u8 (pAreaAndType p) ->
  Area (run_setters p l) = last_area (Area p) l /\
  Type_ (run_setters p l) = last_type (Type_ p) l.
Proof. exact setters_history. Qed.

(** Setters touch nothing but the packed byte. *)
Theorem C02_setters_frame : forall p a t,
  (pFirstLink (SetArea p a), pVerts (SetArea p a), pNeis (SetArea p a), pFlags (SetArea p a), pVertCount (SetArea p a))
    = (pFirstLink p, pVerts p, pNeis p, pFlags p, pVertCount p) /\
  (pFirstLink (SetType p t), pVerts (SetType p t), pNeis (SetType p t), pFlags (SetType p t), pVertCount (SetType p t))
    = (pFirstLink p, pVerts p, pNeis p, pFlags p, pVertCount p).
Proof. intros; split; reflexivity. Qed.

Example C02_example :
  let p := mkPoly 0 [] [] 0 0 255 in
  is_u8 (pAreaAndType p) /\
  Area (run_setters p [SArea 70; SType 1; SArea 5]) = 5 /\
  Type_ (run_setters p [SArea 70; SType 1; SArea 5]) = 1.
Proof. vm_compute. intuition congruence. Qed.

(** ** C03 Standard filter *)

Theorem C03_pass_filter : forall qf p,
  PassFilter qf p = true <->
  (exists i, 0 <= i /\ Z.testbit (pFlags p) i = true /\ Z.testbit (includeFlags qf) i = true) /\
  ~ (exists i, 0 <= i /\ Z.testbit (pFlags p) i = true /\ Z.testbit (excludeFlags qf) i = true).
Proof. exact pass_filter_iff. Qed.

Theorem C03_setters : forall qf f,
  includeFlags (SetIncludeFlags qf f) = f /\ excludeFlags (SetIncludeFlags qf f) = excludeFlags qf /\
  excludeFlags (SetExcludeFlags qf f) = f /\ includeFlags (SetExcludeFlags qf f) = includeFlags qf /\
  areaCost (SetIncludeFlags qf f) = areaCost qf /\ areaCost (SetExcludeFlags qf f) = areaCost qf.
Proof. intros; repeat split. Qed.

(** The cost set for area [i] is the one read for [i] and for no other area. *)
Theorem C03_area_cost : forall qf i j c qf', SetAreaCost qf i c = Ok qf' ->
  AreaCost qf' j = if j =? i then Ok c else AreaCost qf j.
Proof. exact area_cost_set. Qed.

(** Cost uses the entry of the current polygon's area; it never panics on a full table. *)
Theorem C03_cost_uses_area : forall qf pa pb cur,
  length (areaCost qf) = 64%nat ->
  exists c, AreaCost qf (Area cur) = Ok c /\ Cost qf pa pb cur = Ok (fmul (vdist pa pb) c).
Proof.
  intros qf pa pb cur H. unfold Cost, AreaCost.
  assert (0 <= Area cur < 64) as R.
  { unfold Area. change 63 with (Z.ones 6). rewrite Z.land_ones by lia. apply Z.mod_pos_bound. lia. }
  destruct (get_in_range (areaCost qf) (Area cur)) as [c E].
  { unfold zlen. rewrite H. exact R. }
  exists c. rewrite E. auto.
Qed.

Example C03_example :
  let qf := SetExcludeFlags (SetIncludeFlags NewStandardQueryFilter 6) 8 in
  PassFilter qf (mkPoly 0 [] [] 2 0 0) = true /\ PassFilter qf (mkPoly 0 [] [] 10 0 0) = false /\
  PassFilter qf (mkPoly 0 [] [] 1 0 0) = false /\
  (exists q', SetAreaCost qf 3 (f_of_Z 2) = Ok q' /\ AreaCost q' 3 = Ok (f_of_Z 2) /\ AreaCost q' 4 = Ok f1).
Proof. vm_compute. repeat split; try reflexivity. eexists; repeat split; reflexivity. Qed.

(** ** C04 Box overlap *)

Theorem C04_overlap_quant : forall an0 an1 an2 ax0 ax1 ax2 bn0 bn1 bn2 bx0 bx1 bx2,
  an0 <= ax0 -> an1 <= ax1 -> an2 <= ax2 -> bn0 <= bx0 -> bn1 <= bx1 -> bn2 <= bx2 ->
  OverlapQuantBounds (an0,an1,an2) (ax0,ax1,ax2) (bn0,bn1,bn2) (bx0,bx1,bx2) = true <->
  exists x y z, (an0 <= x <= ax0 /\ an1 <= y <= ax1 /\ an2 <= z <= ax2) /\
                (bn0 <= x <= bx0 /\ bn1 <= y <= bx1 /\ bn2 <= z <= bx2).
Proof. exact overlap_quant_iff. Qed.

(** Float boxes: [box_wf] says min <= max on each axis (so no NaN). *)
Theorem C04_overlap_bounds : forall amin amax bmin bmax, box_wf amin amax -> box_wf bmin bmax ->
  (OverlapBounds amin amax bmin bmax = true <->
   exists p, in_box p amin amax /\ in_box p bmin bmax).
Proof. exact overlap_bounds_iff. Qed.

Theorem C04_recast_overlap_bounds : forall amin amax bmin bmax, box_wf amin amax -> box_wf bmin bmax ->
  (recast_overlapBounds amin amax bmin bmax = true <->
   exists p, in_box p amin amax /\ in_box p bmin bmax).
Proof. exact overlap_bounds_iff. Qed.

Theorem C04_overlap_rect : forall an0 an1 ax0 ax1 bn0 bn1 bx0 bx1,
  fle an0 ax0 = true -> fle an1 ax1 = true -> fle bn0 bx0 = true -> fle bn1 bx1 = true ->
  (checkOverlapRect (an0,an1) (ax0,ax1) (bn0,bn1) (bx0,bx1) = true <->
   exists x y, fle an0 x = true /\ fle x ax0 = true /\ fle an1 y = true /\ fle y ax1 = true /\
               fle bn0 x = true /\ fle x bx0 = true /\ fle bn1 y = true /\ fle y bx1 = true).
Proof. exact overlap_rect_iff. Qed.

Example C04_example :
  OverlapQuantBounds (0,0,0) (2,2,2) (2,1,0) (5,5,0) = true /\
  OverlapQuantBounds (0,0,0) (2,2,2) (3,1,0) (5,5,0) = false /\
  box_wf (f0,f0,f0) (f1,f1,f1) /\ box_wf (f1,f0,f0) (f_of_Z 2,f1,f1) /\
  OverlapBounds (f0,f0,f0) (f1,f1,f1) (f1,f0,f0) (f_of_Z 2,f1,f1) = true.
Proof. vm_compute. intuition congruence. Qed.

(** ** C05 References *)

Theorem C05_decode_encode : forall b salt it ip, bits_ok b ->
  0 <= salt < 2 ^ saltBits b -> 0 <= it < 2 ^ tileBits b -> 0 <= ip < 2 ^ polyBits b ->
  DecodePolyID b (encodePolyID b salt it ip) = (salt, it, ip).
Proof. exact decode_encode. Qed.

Theorem C05_encode_injective : forall b s1 t1 p1 s2 t2 p2, bits_ok b ->
  0 <= s1 < 2 ^ saltBits b -> 0 <= t1 < 2 ^ tileBits b -> 0 <= p1 < 2 ^ polyBits b ->
  0 <= s2 < 2 ^ saltBits b -> 0 <= t2 < 2 ^ tileBits b -> 0 <= p2 < 2 ^ polyBits b ->
  encodePolyID b s1 t1 p1 = encodePolyID b s2 t2 p2 -> (s1, t1, p1) = (s2, t2, p2).
Proof.
  intros b s1 t1 p1 s2 t2 p2 Hb H1 H2 H3 H4 H5 H6 E.
  rewrite <- (decode_encode b s1 t1 p1), <- (decode_encode b s2 t2 p2) by assumption. now rewrite E.
Qed.

Theorem C05_ref_not_null : forall b salt it ip, bits_ok b ->
  0 < salt < 2 ^ saltBits b -> 0 <= it < 2 ^ tileBits b -> 0 <= ip < 2 ^ polyBits b ->
  encodePolyID b salt it ip <> 0.
Proof.
  intros b salt it ip Hb Hs Ht Hp E.
  pose proof (decode_encode b salt it ip Hb) as D. rewrite E in D.
  pose proof (decode_encode b 0 0 0 Hb) as D0.
  assert (encodePolyID b 0 0 0 = 0) as E0 by (unfold encodePolyID, shl32; now rewrite !Z.shiftl_0_l).
  rewrite E0 in D0. rewrite D0 in D by (try lia; split; try lia; apply Z.pow_pos_nonneg; unfold bits_ok in Hb; lia).
  assert ((0, 0, 0) = (salt, it, ip)) as X by (apply D; lia). inversion X. lia.
Qed.

(** Conversely every 32-bit reference is the encoding of what it decodes to, when
    the three widths use all 32 bits. *)
Theorem C05_encode_decode : forall b ref, bits_ok b ->
  saltBits b + tileBits b + polyBits b = 32 -> is_u32 ref ->
  let '(salt, it, ip) := DecodePolyID b ref in
  0 <= salt < 2 ^ saltBits b /\ 0 <= it < 2 ^ tileBits b /\ 0 <= ip < 2 ^ polyBits b /\
  encodePolyID b salt it ip = ref.
Proof. exact encode_decode. Qed.

(** The widths chosen by Init are fit for encoding whenever Init accepts parameters
    whose widths do not exceed 32 bits. *)
Theorem C05_init_bits_ok : forall mt mp, 0 <= mt <= 2 ^ 31 -> 0 <= mp <= 2 ^ 31 ->
  Z.log2_up mt + Z.log2_up mp <= 32 ->
  bits_ok (init_bits mt mp) /\ mt <= 2 ^ tileBits (init_bits mt mp) /\ mp <= 2 ^ polyBits (init_bits mt mp).
Proof.
  intros mt mp Ht Hp Hsum. destruct (init_bits_facts mt mp Ht Hp Hsum) as (Hb & -> & -> & _).
  split; [assumption|]. split; apply log2_up_iff; try lia; apply Z.log2_up_nonneg.
Qed.

Example C05_example :
  let b := init_bits 128 32768 in
  bits_ok b /\ saltBits b = 10 /\ DecodePolyID b (encodePolyID b 1023 127 32767) = (1023, 127, 32767).
Proof. vm_compute. intuition congruence. Qed.

(** ** C06 Init *)

(** Init succeeds iff [a] bits for the tiles and [b] bits for the polygons can be found
    that leave at least 8 bits for the salt; for parameters whose widths do not exceed
    32 bits in total. *)
Theorem C06_init_accepts : forall mt mp, 0 <= mt <= 2 ^ 31 -> 0 <= mp <= 2 ^ 31 ->
  Z.log2_up mt + Z.log2_up mp <= 32 ->
  (init_status (init_bits mt mp) = Success <->
   exists a b, 0 <= a /\ 0 <= b /\ mt <= 2 ^ a /\ mp <= 2 ^ b /\ a + b + 8 <= 32).
Proof.
  intros mt mp Ht Hp Hsum. rewrite init_status_iff by assumption. split.
  - intros H. exists (Z.log2_up mt), (Z.log2_up mp).
    pose proof (Z.log2_up_nonneg mt). pose proof (Z.log2_up_nonneg mp).
    repeat split; try lia; apply log2_up_iff; lia.
  - intros (a & b & Ha & Hb & H1 & H2 & H3).
    apply log2_up_iff in H1; try lia. apply log2_up_iff in H2; lia.
Qed.

(** Refuted without the guard: the uint32 subtraction wraps around and Init accepts
    parameters that leave no salt bits at all (4 tiles, 2^31 polygons). *)
Theorem C06_init_accepts_refuted :
  exists mt mp, 0 <= mt < 2 ^ 32 /\ 0 <= mp < 2 ^ 32 /\
    init_status (init_bits mt mp) = Success /\
    ~ exists a b, 0 <= a /\ 0 <= b /\ mt <= 2 ^ a /\ mp <= 2 ^ b /\ a + b + 8 <= 32.
Proof.
  exists 4, (2 ^ 31). repeat split; try (vm_compute; congruence).
  intros (a & b & Ha & Hb & H1 & H2 & H3).
  assert (31 <= b) by (apply (Z.pow_le_mono_r_iff 2); lia). lia.
Qed.

(** The same mesh then confuses polygon references. *)
Theorem C06_wrapped_init_confuses_refs_refuted :
  exists mt mp s1 t1 p1 s2 t2 p2,
    init_status (init_bits mt mp) = Success /\
    (0 < s1 < 2 ^ 31 /\ 0 <= t1 < mt /\ 0 <= p1 < mp) /\
    (0 < s2 < 2 ^ 31 /\ 0 <= t2 < mt /\ 0 <= p2 < mp) /\
    (s1, t1, p1) <> (s2, t2, p2) /\
    encodePolyID (init_bits mt mp) s1 t1 p1 = encodePolyID (init_bits mt mp) s2 t2 p2.
Proof.
  exists 4, (2 ^ 31), 1, 0, 7, 2, 2, 7. vm_compute. repeat split; congruence.
Qed.

Example C06_example :
  init_status (init_bits 256 65536) = Success /\
  init_status (init_bits 256 65537) <> Success /\
  Z.log2_up 256 + Z.log2_up 65537 <= 32.
Proof. vm_compute. intuition congruence. Qed.

(** ** C17 Sides *)

Theorem C17_opposite_involution : forall s, 0 <= s < 8 ->
  0 <= oppositeTile s < 8 /\ oppositeTile (oppositeTile s) = s /\ oppositeTile s <> s.
Proof.
  intros s H. pose proof (opposite_cases s H) as E.
  destruct (Z.ltb_spec s 4); rewrite E; rewrite opposite_cases by lia.
  - destruct (Z.ltb_spec (s + 4) 4); lia.
  - destruct (Z.ltb_spec (s - 4) 4); lia.
Qed.

(** The neighbour on side [s] has the original location on its opposite side. *)
Theorem C17_neighbour_back : forall x y s x' y', is_i32 x -> is_i32 y -> 0 <= s < 8 ->
  neighbourLoc x y s = (x', y') -> neighbourLoc x' y' (oppositeTile s) = (x, y).
Proof. exact neighbour_back. Qed.

(** Different sides are different locations, and none is the location itself. *)
Theorem C17_neighbours_distinct : forall x y s1 s2, is_i32 x -> is_i32 y ->
  0 <= s1 < 8 -> 0 <= s2 < 8 ->
  (neighbourLoc x y s1 = neighbourLoc x y s2 -> s1 = s2) /\ neighbourLoc x y s1 <> (x, y).
Proof.
  intros x y s1 s2 Hx Hy H1 H2.
  assert (i32 (x + 1) <> x /\ i32 (x - 1) <> x /\ i32 (x + 1) <> i32 (x - 1)) as (A & B & C).
  { unfold i32, is_i32 in *. Z.div_mod_to_equations. lia. }
  assert (i32 (y + 1) <> y /\ i32 (y - 1) <> y /\ i32 (y + 1) <> i32 (y - 1)) as (D & E & F).
  { unfold i32, is_i32 in *. Z.div_mod_to_equations. lia. }
  unfold neighbourLoc. clear Hx Hy.
  revert A B C D E F. generalize (i32 (x + 1)) as xp. generalize (i32 (x - 1)) as xm.
  generalize (i32 (y + 1)) as yp. generalize (i32 (y - 1)) as ym. intros ym yp xm xp A B C D E F.
  split.
  - destruct (Z.eqb_spec s1 0), (Z.eqb_spec s2 0); try lia;
    try destruct (Z.eqb_spec s1 1); try destruct (Z.eqb_spec s2 1); try lia;
    try destruct (Z.eqb_spec s1 2); try destruct (Z.eqb_spec s2 2); try lia;
    try destruct (Z.eqb_spec s1 3); try destruct (Z.eqb_spec s2 3); try lia;
    try destruct (Z.eqb_spec s1 4); try destruct (Z.eqb_spec s2 4); try lia;
    try destruct (Z.eqb_spec s1 5); try destruct (Z.eqb_spec s2 5); try lia;
    try destruct (Z.eqb_spec s1 6); try destruct (Z.eqb_spec s2 6); try lia;
    try destruct (Z.eqb_spec s1 7); try destruct (Z.eqb_spec s2 7); try lia;
    rewrite pair_equal_spec; lia.
  - destruct (Z.eqb_spec s1 0); [rewrite pair_equal_spec; lia|].
    destruct (Z.eqb_spec s1 1); [rewrite pair_equal_spec; lia|].
    destruct (Z.eqb_spec s1 2); [rewrite pair_equal_spec; lia|].
    destruct (Z.eqb_spec s1 3); [rewrite pair_equal_spec; lia|].
    destruct (Z.eqb_spec s1 4); [rewrite pair_equal_spec; lia|].
    destruct (Z.eqb_spec s1 5); [rewrite pair_equal_spec; lia|].
    destruct (Z.eqb_spec s1 6); [rewrite pair_equal_spec; lia|].
    destruct (Z.eqb_spec s1 7); [rewrite pair_equal_spec; lia|]. lia.
Qed.

Example C17_example : is_i32 3 /\ is_i32 (-1) /\ neighbourLoc 3 (-1) 5 = (2, -2) /\ oppositeTile 5 = 1.
Proof. vm_compute. intuition congruence. Qed.

Print Assumptions C01_status_base.
Print Assumptions C01_status_detail_neutral.
Print Assumptions C01_status_detail.
Print Assumptions C61_failure_message.
Print Assumptions C61_no_false_failure.
Print Assumptions C61_in_progress_message_refuted.
Print Assumptions C02_area_type_fields.
Print Assumptions C02_area_type_history.
Print Assumptions C02_setters_frame.
Print Assumptions C03_pass_filter.
Print Assumptions C03_setters.
Print Assumptions C03_area_cost.
Print Assumptions C03_cost_uses_area.
Print Assumptions C04_overlap_quant.
Print Assumptions C04_overlap_bounds.
Print Assumptions C04_recast_overlap_bounds.
Print Assumptions C04_overlap_rect.
Print Assumptions C05_decode_encode.
Print Assumptions C05_encode_injective.
Print Assumptions C05_ref_not_null.
Print Assumptions C05_encode_decode.
Print Assumptions C05_init_bits_ok.
Print Assumptions C06_init_accepts.
Print Assumptions C06_init_accepts_refuted.
Print Assumptions C06_wrapped_init_confuses_refs_refuted.
Print Assumptions C17_opposite_involution.
Print Assumptions C17_neighbour_back.
Print Assumptions C17_neighbours_distinct.
