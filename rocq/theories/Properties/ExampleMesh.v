(** A small mesh used in examples: two tiles of two triangles side by side, added to a new mesh. *)
From Coq Require Import ZArith List Bool Lia.
From Verif.Base Require Import Res GoNum Grid.
From Verif.Model Require Import Status Poly PolyRef MeshTypes Serial MeshLinks MeshTiles.
From Verif.Spec Require Import LinkSpec SerialSpec MeshSpec.
Import ListNotations.
Open Scope Z_scope.

Definition one : Z := 1065353216.
Definition two : Z := 1073741824.
Definition ex_tri (vs ns : list Z) : Poly := mkPoly 0 (vs ++ [0; 0; 0]) (ns ++ [0; 0; 0]) 1 3 0.
Definition ex_td (x0 x1 : Z) : TileData :=
  mkTD [x0; 0; 0; x1; 0; 0; x1; 0; one; x0; 0; one]
       [ex_tri [0; 1; 2] [0; 32768; 2]; ex_tri [0; 2; 3] [1; 0; 32772]] (repeat (mkLink 0 0 0 0 0 0) 4)
       [] [] [] [] [].
Definition ex_head (x : Z) (x0 x1 : Z) : MeshHeader :=
  mkHeader navMeshMagic navMeshVersion x 0 0 9 2 4 4 0 0 0 0 0 2 two 0 one (x0, 0, 0) (x1, one, one) one.
Definition ok_or {T} (d : T) (r : res T) : T := match r with Ok a => a | _ => d end.
Definition ex_bytes (h : MeshHeader) (td : TileData) : list Z :=
  ok_or [] (let* b := header_serialize (repeat 0 100) h in let* r := serializeTileData (repeat 0 160) td in Ok (b ++ r)).
Definition ex_d0 : list Z := ex_bytes (ex_head 0 0 one) (ex_td 0 one).
Definition ex_d1 : list Z := ex_bytes (ex_head 1 one two) (ex_td one two).
Definition ex_params : NavMeshParams := mkParams (0, 0, 0) one one 4 4.
Definition no_mesh : NavMesh := mkMesh ex_params 0 0 0 [] None [] (mkIdBits 0 0 0).
Definition ex_m0 : NavMesh := Eval vm_compute in fst (ok_or (no_mesh, 0) (Init ex_params)).
Definition ex_m1 : NavMesh := Eval vm_compute in fst (fst (ok_or (no_mesh, 0, 0) (AddTile ex_m0 ex_d0 0))).
Definition ex_r0 : Z := Eval vm_compute in snd (ok_or (no_mesh, 0, 0) (AddTile ex_m0 ex_d0 0)).
Definition ex_m2 : NavMesh := Eval vm_compute in fst (fst (ok_or (no_mesh, 0, 0) (AddTile ex_m1 ex_d1 0))).
Definition ex_r1 : Z := Eval vm_compute in snd (ok_or (no_mesh, 0, 0) (AddTile ex_m1 ex_d1 0)).
Definition ex_A : list entry := [mkEntry (1, 0, 0) ex_r1 ex_d1; mkEntry (0, 0, 0) ex_r0 ex_d0].

Lemma ex_good : good_params ex_params.
Proof. unfold good_params. cbn. lia. Qed.
Lemma ex_fit0 : fit_data ex_d0 (ex_head 0 0 one).
Proof.
  split; [vm_compute; reflexivity|]. split; [reflexivity|]. split; [reflexivity|]. exists (ex_td 0 one).
  split; [vm_compute; reflexivity|]. split; [cbn; lia|]. split; [reflexivity|].
  assert (G : forall vs ns, length vs = 3%nat -> length ns = 3%nat -> Forall (fun v => 0 <= v <= 3) vs -> fit_poly 12 (ex_tri vs ns)).
  { intros vs ns Hv Hn HF. unfold fit_poly, ex_tri. cbn [pVerts pNeis pVertCount]. rewrite !app_length, Hv, Hn. split; [reflexivity|]. split; [reflexivity|]. split; [lia|].
    intros j v Hj Hg. unfold get in Hg. destruct (j <? 0); [discriminate|]. destruct (nth_error (vs ++ [0; 0; 0]) (Z.to_nat j)) as [w|] eqn:E; [|discriminate]. cbn in Hg. injection Hg as <-.
    apply nth_error_In, in_app_iff in E. rewrite Forall_forall in HF. destruct E as [E|E]; [specialize (HF w E); lia|]. cbn in E. lia. }
  change (zlen (tdVerts (ex_td 0 one))) with 12. unfold ex_td. cbn [tdPolys]. constructor; [|constructor; [|constructor]]; (apply G; [reflexivity|reflexivity|]; repeat (constructor; [lia|]); constructor).
Qed.
Lemma ex_fit1 : fit_data ex_d1 (ex_head 1 one two).
Proof.
  split; [vm_compute; reflexivity|]. split; [reflexivity|]. split; [reflexivity|]. exists (ex_td one two).
  split; [vm_compute; reflexivity|]. split; [cbn; lia|]. split; [reflexivity|].
  assert (G : forall vs ns, length vs = 3%nat -> length ns = 3%nat -> Forall (fun v => 0 <= v <= 3) vs -> fit_poly 12 (ex_tri vs ns)).
  { intros vs ns Hv Hn HF. unfold fit_poly, ex_tri. cbn [pVerts pNeis pVertCount]. rewrite !app_length, Hv, Hn. split; [reflexivity|]. split; [reflexivity|]. split; [lia|].
    intros j v Hj Hg. unfold get in Hg. destruct (j <? 0); [discriminate|]. destruct (nth_error (vs ++ [0; 0; 0]) (Z.to_nat j)) as [w|] eqn:E; [|discriminate]. cbn in Hg. injection Hg as <-.
    apply nth_error_In, in_app_iff in E. rewrite Forall_forall in HF. destruct E as [E|E]; [specialize (HF w E); lia|]. cbn in E. lia. }
  change (zlen (tdVerts (ex_td one two))) with 12. unfold ex_td. cbn [tdPolys]. constructor; [|constructor; [|constructor]]; (apply G; [reflexivity|reflexivity|]; repeat (constructor; [lia|]); constructor).
Qed.
Lemma ex_init : Init ex_params = Ok (ex_m0, Success).
Proof. vm_compute. reflexivity. Qed.
Lemma ex_add0 : AddTile ex_m0 ex_d0 0 = Ok (ex_m1, Success, ex_r0).
Proof. vm_compute. reflexivity. Qed.
Lemma ex_add1 : AddTile ex_m1 ex_d1 0 = Ok (ex_m2, Success, ex_r1).
Proof. vm_compute. reflexivity. Qed.
Lemma ex_run : forall ok : NavMesh -> list entry -> Prop, (forall m d r, ok m [mkEntry d r ex_d0]) -> ok ex_m2 ex_A -> Run ok ex_m2 ex_A.
Proof.
  intros ok H1 H2. unfold ex_A. apply (Run_add ok ex_m1 [mkEntry (0, 0, 0) ex_r0 ex_d0] ex_d1 0 ex_m2 ex_r1 (ex_head 1 one two)).
  - apply (Run_add ok ex_m0 [] ex_d0 0 ex_m1 ex_r0 (ex_head 0 0 one)).
    + eapply Run_init; [exact ex_good|exact ex_init].
    + now left.
    + exact ex_add0.
    + apply ex_fit0.
    + apply H1.
  - now left.
  - exact ex_add1.
  - apply ex_fit1.
  - exact H2.
Qed.
Lemma ex_run_any : Run any ex_m2 ex_A.
Proof. apply ex_run; unfold any; auto. Qed.
Lemma ex_run_fits : Run fits ex_m2 ex_A.
Proof.
  apply ex_run; unfold fits.
  - intros. constructor; [|constructor]. eexists. exact ex_fit0.
  - constructor; [|constructor; [|constructor]]; eexists; [exact ex_fit1|exact ex_fit0].
Qed.
Lemma ex_sound_data : forall p, npMaxPolys p = 4 -> sound_data p ex_d0 /\ sound_data p ex_d1.
Proof.
  assert (HL : Z.land 32768 extLink <> 0 /\ Z.land 32772 extLink <> 0) by (split; discriminate).
  intros p Hp. split; intros h td Hh Htd.
  - rewrite (proj1 ex_fit0) in Hh. injection Hh as <-. assert (E : tile_unserialize (ex_head 0 0 one) (skipn 100 ex_d0) = Ok (ex_td 0 one)) by (vm_compute; reflexivity).
    rewrite E in Htd. injection Htd as <-. rewrite Hp. cbn [ex_head ex_td hPolyCount tdBv tdPolys]. split; [lia|]. split; [constructor|].
    constructor; [|constructor; [|constructor]]; cbn [ex_tri pNeis app]; repeat (constructor; [lia || tauto|]); constructor.
  - rewrite (proj1 ex_fit1) in Hh. injection Hh as <-. assert (E : tile_unserialize (ex_head 1 one two) (skipn 100 ex_d1) = Ok (ex_td one two)) by (vm_compute; reflexivity).
    rewrite E in Htd. injection Htd as <-. rewrite Hp. cbn [ex_head ex_td hPolyCount tdBv tdPolys]. split; [lia|]. split; [constructor|].
    constructor; [|constructor; [|constructor]]; cbn [ex_tri pNeis app]; repeat (constructor; [lia || tauto|]); constructor.
Qed.
Lemma ex_run_sound : Run sound ex_m2 ex_A.
Proof.
  unfold ex_A. assert (S1 : sound ex_m1 [mkEntry (0, 0, 0) ex_r0 ex_d0]).
  { split; [constructor; [now apply ex_sound_data|constructor]|]. intros x y. cbn [filter]. destruct (at_loc _ _ _); cbn; lia. }
  apply (Run_add sound ex_m1 [mkEntry (0, 0, 0) ex_r0 ex_d0] ex_d1 0 ex_m2 ex_r1 (ex_head 1 one two)).
  - apply (Run_add sound ex_m0 [] ex_d0 0 ex_m1 ex_r0 (ex_head 0 0 one)).
    + eapply Run_init; [exact ex_good|exact ex_init].
    + now left.
    + exact ex_add0.
    + apply ex_fit0.
    + exact S1.
  - now left.
  - exact ex_add1.
  - apply ex_fit1.
  - split; [constructor; [now apply ex_sound_data|constructor; [now apply ex_sound_data|constructor]]|]. intros x y. cbn [filter]. destruct (at_loc _ _ _), (at_loc _ _ _); cbn; lia.
Qed.
