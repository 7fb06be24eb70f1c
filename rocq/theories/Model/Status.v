(** Model of [detour/status.go]. *)
From Coq Require Import ZArith Bool.
Open Scope Z_scope.

(** detour/status.go:9-23, type Status and its constants. *)
Definition Failure : Z := Z.shiftl 1 31.
Definition Success : Z := Z.shiftl 1 30.
Definition InProgress : Z := Z.shiftl 1 29.
Definition StatusDetailMask : Z := 16777215.
Definition WrongMagic : Z := 1.
Definition WrongVersion : Z := 2.
Definition OutOfMemory : Z := 4.
Definition InvalidParam : Z := 8.
Definition BufferTooSmall : Z := 16.
Definition OutOfNodes : Z := 32.
Definition PartialResult : Z := 64.

(** detour/status.go:51-54 *)
Definition StatusSucceed (status : Z) : bool := negb (Z.land status Success =? 0).
(** detour/status.go:56-59 *)
Definition StatusFailed (status : Z) : bool := negb (Z.land status Failure =? 0).
(** detour/status.go:61-64 *)
Definition StatusInProgress (status : Z) : bool := negb (Z.land status InProgress =? 0).
(** detour/status.go:66-69 *)
Definition StatusDetail (status detail : Z) : bool := negb (Z.land status detail =? 0).

(** The messages of detour/status.go:28-48; the formatted number of the default
    message is kept as a number. *)
Inductive message :=
| msg_wrong_magic | msg_wrong_version | msg_out_of_memory | msg_invalid_param
| msg_out_of_nodes | msg_partial_result | msg_unspecified (s : Z)
| msg_in_progress | msg_success.

(** detour/status.go:26-49, (Status).Error *)
Definition status_Error (s : Z) : message :=
  if negb (Z.land s Failure =? 0) then
    let d := Z.land s StatusDetailMask in
    if d =? WrongMagic then msg_wrong_magic
    else if d =? WrongVersion then msg_wrong_version
    else if d =? OutOfMemory then msg_out_of_memory
    else if d =? InvalidParam then msg_invalid_param
    else if d =? OutOfNodes then msg_out_of_nodes
    else if d =? PartialResult then msg_partial_result
    else msg_unspecified s
  else if s =? InProgress then msg_in_progress
  else msg_success.
