(** Detail vertices of a polygon, and when integers can represent a tile. *)
From Coq Require Import ZArith List Bool.
From Verif.Base Require Import Res GoNum F32 Num.
From Verif.Model Require Import MeshTypes Geom MeshLinks.
From Verif.Spec Require Import PathSpec.
Import ListNotations.
Open Scope Z_scope.

(** The detail vertices of polygon i: the entry 4i of the detail meshes is the index of the first
    one, the next entry is their number. *)
Definition detail_verts (dmeshes : list Z) (dverts : list f32) (i : Z) (vs : list fvec) : Prop :=
  exists vb, get dmeshes (4 * i) = Ok vb /\ get dmeshes (4 * i + 1) = Ok (zlen vs) /\
    forall j v, nth_error vs j = Some v ->
      get dverts (3 * (vb + Z.of_nat j)) = Ok (vx v) /\ get dverts (3 * (vb + Z.of_nat j) + 1) = Ok (vy v) /\
      get dverts (3 * (vb + Z.of_nat j) + 2) = Ok (vz v).
(** A float32 that is not NaN. *)
Definition real32 (a : f32) : Prop := valid_binary fprec femax a = true /\ nonnan a.
Definition real_vec (v : fvec) : Prop := real32 (vx v) /\ real32 (vy v) /\ real32 (vz v).
Definition axes : list (fvec -> f32) := [@vx f32; @vy f32; @vz f32].
(** The bounds of the tile are finite and in order, and less than 65535 quantization steps apart. *)
Definition tile_fits (tmin tmax : fvec) (qf : f32) : Prop :=
  finite_pos tmin /\ finite_pos tmax /\ finite32 qf /\ fle f0 qf = true /\
  forall c, In c axes -> fle (c tmin) (c tmax) = true /\ flt (fadd (fmul qf (fsub (c tmax) (c tmin))) f1) (f_of_Z 65536) = true.
(** Vertices whose distance above the lower corner, in quantization steps, is an int32. *)
Definition steps_fit (tmin : fvec) (qf : f32) (vs : list fvec) : Prop :=
  forall v c, In v vs -> In c axes -> flt (fmul (fsub (c v) (c tmin)) qf) (f_of_Z 2147483648) = true.
(** Along each axis some vertex is not above the upper corner. *)
Definition reaches (tmax : fvec) (vs : list fvec) : Prop :=
  forall c, In c axes -> exists v, In v vs /\ fle (c v) (c tmax) = true.
