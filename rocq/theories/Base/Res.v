(** Result of running a piece of Go code in the model. *)
Set Implicit Arguments.

(** [Ok a]: normal result; [Panic]: run-time or explicit Go panic;
    [Exit]: [log.Fatal*]; [NoFuel]: the model's loop bound was exhausted. *)
Inductive res (A : Type) : Type :=
| Ok (a : A)
| Panic
| Exit
| NoFuel.
Arguments Ok {A} a.
Arguments Panic {A}.
Arguments Exit {A}.
Arguments NoFuel {A}.

Definition bind {A B} (x : res A) (f : A -> res B) : res B :=
  match x with
  | Ok a => f a
  | Panic => Panic
  | Exit => Exit
  | NoFuel => NoFuel
  end.

Notation "'let*' x := e 'in' k" := (bind e (fun x => k))
  (at level 200, x pattern, e at level 100, k at level 200, right associativity).

Lemma bind_ok : forall {A B} (x : res A) (f : A -> res B) b,
  bind x f = Ok b -> exists a, x = Ok a /\ f a = Ok b.
Proof. intros A B [a| | |] f b H; simpl in H; try discriminate. eauto. Qed.

Lemma Ok_inj : forall {A} (a b : A), Ok a = Ok b -> a = b.
Proof. congruence. Qed.

Definition of_option {A} (o : option A) : res A :=
  match o with Some a => Ok a | None => Panic end.

Definition is_ok {A} (x : res A) : bool :=
  match x with Ok _ => true | _ => false end.

(** [bind_inv H] decomposes a hypothesis [H : bind x f = Ok b]. *)
Ltac bind_inv H :=
  let a := fresh "a" in let H1 := fresh "E" in let H2 := fresh H in
  apply bind_ok in H; destruct H as [a [H1 H2]].
