(** C20: saving a navigation mesh and loading it again. *)
From Coq Require Import ZArith List Bool Lia.
From Verif.Base Require Import Res GoNum Grid.
From Verif.Model Require Import Status Poly PolyRef MeshTypes Serial MeshLinks MeshTiles.
From Verif.Spec Require Import LinkSpec SerialSpec MeshSpec.
From Verif.Proofs Require Import PolyRefProofs LinkProofs MeshStep TableProofs SlotProofs LinkTile MeshInv LinkValid FitProofs MeshHist SaveProofs.
From Verif.Properties Require Import ExampleMesh.
Import ListNotations.
Open Scope Z_scope.

(** The mesh [m'] read from what [m] wrote: same parameters, and every slot holds a tile with
    the same header, salt and contents as in [m], or none as in [m]. *)
Definition same_mesh (m m' : NavMesh) : Prop :=
  mParams m' = mParams m /\ mBits m' = mBits m /\ length (mTiles m') = length (mTiles m) /\
  forall i t, nth_error (mTiles m) i = Some t -> exists t', nth_error (mTiles m') i = Some t' /\
    tHeader t' = tHeader t /\ (tHeader t <> None -> tSalt t' = tSalt t /\ same_contents (tD t') (tD t)).

(** For every history of well-formed tiles: ToWriter succeeds, Size is the number of bytes
    written (as an int32), and Decode, given these bytes by a reader that returns as much as
    was asked for, yields the same mesh, itself a mesh made by adding tiles. *)
Theorem C20_save_and_load : forall m A, Run fits m A -> Forall (fun e => saveable (eData e)) A -> typed_params (mParams m) ->
  exists bytes m' A', ToWriter m = Ok bytes /\ Size m = Ok (i32 (zlen bytes)) /\ Decode [bytes] = Ok (Some m') /\
    Run fits m' A' /\ same_mesh m m'.
Proof.
  intros m A HR HS HP. destruct (save_load m A HR HS HP) as (bytes & m' & A' & E1 & E2 & E3 & HR' & EP & EL & K).
  exists bytes, m', A'. split; [exact E1|]. split; [exact E2|]. split; [exact E3|]. split; [exact HR'|]. split; [exact EP|].
  split; [|split; [exact EL|exact K]]. apply Run_inv in HR, HR'. destruct (iv_params _ _ HR) as (_ & -> & _). destruct (iv_params _ _ HR') as (_ & -> & _). now rewrite EP.
Qed.

(** Hence references keep their meaning: the same reference at every location, and the same
    polygon references are valid. *)
Theorem C20_references_survive : forall m A bytes m', Run fits m A -> Forall (fun e => saveable (eData e)) A -> typed_params (mParams m) ->
  ToWriter m = Ok bytes -> Decode [bytes] = Ok (Some m') ->
  (forall x y layer, TileRefAt m' x y layer = TileRefAt m x y layer) /\
  (forall r, IsValidPolyRef m' r = IsValidPolyRef m r).
Proof.
  intros m A bytes m' HR HS HP E1 E2. destruct (C20_save_and_load m A HR HS HP) as (bytes' & m1 & A' & F1 & _ & F2 & HR' & (EP & EB & EL & K)).
  rewrite E1 in F1. apply Ok_inj in F1. subst bytes'. rewrite E2 in F2. apply Ok_inj in F2. injection F2 as <-.
  pose proof (Run_inv _ _ _ HR) as HI. pose proof (Run_inv _ _ _ HR') as HI'. split.
  - intros x y l. unfold TileRefAt. destruct (iv_view _ _ HI) as (fr & bk & HV). destruct (iv_view _ _ HI') as (fr' & bk' & HV').
    destruct (TileAt_spec m fr bk x y l (iv_ok _ _ HI) HV) as (o & -> & Ho). destruct (TileAt_spec m' fr' bk' x y l (iv_ok _ _ HI') HV') as (o' & -> & Ho'). cbn [bind].
    destruct o as [i|]; [|destruct o' as [j|]; [|reflexivity]].
    + destruct Ho as (h & (t & Ht & Hh) & El). destruct (K i t Ht) as (t' & Ht' & Eh & Ks). rewrite Hh in Eh. destruct Ks as (Es & _); [congruence|].
      assert (o' = Some i) as ->.
      { destruct o' as [j|]; [|exfalso; apply (Ho' i h); [exists t'; auto|exact El]]. destruct Ho' as (g & (s & Hs & Hg) & El'). f_equal.
        exact (live_loc m' A' j i s t' g h HI' Hs Ht' Hg Eh (eq_trans El' (eq_sym El))). }
      unfold TileRef. rewrite (base_of_tile m' i t'), (base_of_tile m i t) by (now apply tile_of_nth). now rewrite EB, Es.
    + destruct Ho' as (g & (s & Hs & Hg) & El'). exfalso. assert (Hj : (j < length (mTiles m))%nat) by (rewrite <- EL; apply nth_error_Some; congruence).
      destruct (nth_error_in_range _ _ Hj) as (t & Ht). destruct (K j t Ht) as (t' & Ht' & Eh & _). apply (Ho j g); [|exact El']. exists t. split; [exact Ht|]. congruence.
  - intros r. unfold IsValidPolyRef. destruct (r =? 0); [reflexivity|]. rewrite EB. destruct (DecodePolyID (mBits m) r) as ((salt, it), ip).
    destruct (iv_ok _ _ HI) as (M1 & _). destruct (iv_ok _ _ HI') as (M2 & _). rewrite M1, M2. unfold zlen at 1 2. rewrite EL. fold (zlen (mTiles m)).
    destruct (_ <=? it); [reflexivity|]. unfold get. destruct (it <? 0); [reflexivity|].
    destruct (nth_error (mTiles m) (Z.to_nat it)) as [t|] eqn:Et.
    + destruct (K _ _ Et) as (t' & -> & Eh & Ks). cbn [of_option bind]. rewrite Eh. destruct (tHeader t) as [h|]; [|reflexivity]. destruct Ks as (-> & _); [discriminate|]. reflexivity.
    + apply nth_error_None in Et. rewrite <- EL in Et. apply nth_error_None in Et. rewrite Et. reflexivity.
Qed.

Lemma ex_saveable : saveable ex_d0 /\ saveable ex_d1.
Proof.
  assert (G : forall l, forallb (fun b => (0 <=? b) && (b <? 256)) l = true -> Forall is_u8 l).
  { intros l H. apply Forall_forall. intros x Hx. rewrite forallb_forall in H. specialize (H x Hx). apply andb_prop in H. unfold is_u8. lia. }
  split; (split; [apply G; vm_compute; reflexivity|split; [vm_compute; reflexivity|]]); intros h td Hh Htd.
  - rewrite (proj1 ex_fit0) in Hh. apply Ok_inj in Hh. subst h. assert (E : tile_unserialize (ex_head 0 0 one) (skipn 100 ex_d0) = Ok (ex_td 0 one)) by (vm_compute; reflexivity).
    rewrite E in Htd. apply Ok_inj in Htd. subst td. split; [unfold counts_match; cbn; lia|vm_compute; discriminate].
  - rewrite (proj1 ex_fit1) in Hh. apply Ok_inj in Hh. subst h. assert (E : tile_unserialize (ex_head 1 one two) (skipn 100 ex_d1) = Ok (ex_td one two)) by (vm_compute; reflexivity).
    rewrite E in Htd. apply Ok_inj in Htd. subst td. split; [unfold counts_match; cbn; lia|vm_compute; discriminate].
Qed.
Lemma ex_saveable_all : Forall (fun e => saveable (eData e)) ex_A.
Proof. constructor; [|constructor; [|constructor]]; apply ex_saveable. Qed.
Lemma ex_typed : typed_params (mParams ex_m2).
Proof. unfold typed_params, u32x3. split; [cbn; unfold is_u32; lia|]. cbn. do 4 (constructor; [unfold is_u32; lia|]). constructor. Qed.
Definition ex_file : list Z := Eval vm_compute in ok_or [] (ToWriter ex_m2).
Lemma ex_written : ToWriter ex_m2 = Ok ex_file.
Proof. vm_compute. reflexivity. Qed.

(** Two tiles: 40 + 2 * (8 + 260) bytes, read back into the first two slots. *)
Example C20_example : Run fits ex_m2 ex_A /\ Forall (fun e => saveable (eData e)) ex_A /\ typed_params (mParams ex_m2) /\
  ToWriter ex_m2 = Ok ex_file /\ zlen ex_file = 576 /\ Size ex_m2 = Ok 576 /\
  exists m', Decode [ex_file] = Ok (Some m') /\ map tDataSize (mTiles m') = [260; 260; 0; 0] /\ TileRefAt m' 1 0 0 = Ok ex_r1.
Proof.
  split; [exact ex_run_fits|]. split; [exact ex_saveable_all|]. split; [exact ex_typed|]. split; [exact ex_written|]. split; [vm_compute; reflexivity|]. split; [vm_compute; reflexivity|].
  eexists. split; [vm_compute; reflexivity|]. split; vm_compute; reflexivity.
Qed.

(** Decode reads tile data with a single call of Read, which may return less than the buffer:
    when the same bytes arrive in two pieces, loading may fail. *)
Theorem C20_short_read_refuted : exists m A bytes chunks, Run fits m A /\ Forall (fun e => saveable (eData e)) A /\ typed_params (mParams m) /\
  ToWriter m = Ok bytes /\ concat chunks = bytes /\ Decode chunks = Panic.
Proof.
  exists ex_m2, ex_A, ex_file, [firstn 200 ex_file; skipn 200 ex_file].
  split; [exact ex_run_fits|]. split; [exact ex_saveable_all|]. split; [exact ex_typed|]. split; [exact ex_written|]. split; vm_compute; reflexivity.
Qed.

Print Assumptions C20_save_and_load.
Print Assumptions C20_references_survive.
Print Assumptions C20_short_read_refuted.
