(** recast/buildcontext.go: the log of a build context. The timers are not modelled. The text
    given to [log] is the result of [fmt.Sprintf(format, v...)]. *)
From Coq Require Import ZArith List Bool String.
From Verif.Base Require Import Res GoNum.
Import ListNotations.
Open Scope Z_scope.

(** recast/buildcontext.go:13-17 *)
Inductive logCategory := logProgress | logWarning | logError.
(** recast/buildcontext.go:19 *)
Definition maxMessages : Z := 1000.

(** recast/buildcontext.go:23-36: messages, numMessages, logEnabled. *)
Record BuildContext := mkCtx { messages : list string; numMessages : Z; logEnabled : bool }.

(** recast/buildcontext.go:40-45 *)
Definition NewBuildContext (state : bool) : BuildContext :=
  mkCtx (repeat EmptyString (Z.to_nat maxMessages)) 0 state.
(** recast/buildcontext.go:48-50 *)
Definition EnableLog (ctx : BuildContext) (state : bool) : BuildContext :=
  mkCtx (messages ctx) (numMessages ctx) state.
(** recast/buildcontext.go:58-62 *)
Definition ResetLog (ctx : BuildContext) : BuildContext :=
  if logEnabled ctx then mkCtx (messages ctx) 0 (logEnabled ctx) else ctx.
(** recast/buildcontext.go:101-114 *)
Definition prefix (c : logCategory) : string :=
  match c with logProgress => "PROG " | logWarning => "WARN " | logError => "ERR " end.
Definition log (ctx : BuildContext) (c : logCategory) (text : string) : res BuildContext :=
  if logEnabled ctx && (numMessages ctx <? maxMessages) then
    let* ms := set (messages ctx) (numMessages ctx) (prefix c ++ text)%string in
    Ok (mkCtx ms (numMessages ctx + 1) (logEnabled ctx))
  else Ok ctx.
(** recast/buildcontext.go:132-134 *)
Definition LogCount (ctx : BuildContext) : Z := numMessages ctx.
(** recast/buildcontext.go:137-139 *)
Definition LogText (ctx : BuildContext) (i : Z) : res string := get (messages ctx) i.
(** recast/buildcontext.go:120-129: the lines written to [w]; [header] is the formatted first line. *)
Fixpoint dump_from (ctx : BuildContext) (i : Z) (k : nat) : res (list string) :=
  match k with
  | O => Ok []
  | S k => let* m := get (messages ctx) i in let* r := dump_from ctx (i + 1) k in Ok (m :: r)
  end.
Definition DumpLog (ctx : BuildContext) (header : string) : res (list string) :=
  let* r := dump_from ctx 0 (Z.to_nat (numMessages ctx)) in Ok (header :: r).

(** The calls a program can make on the log, in order. *)
Inductive logOp := OpEnable (b : bool) | OpReset | OpLog (c : logCategory) (text : string).
Definition logStep (ctx : BuildContext) (o : logOp) : res BuildContext :=
  match o with
  | OpEnable b => Ok (EnableLog ctx b)
  | OpReset => Ok (ResetLog ctx)
  | OpLog c t => log ctx c t
  end.
Fixpoint logRun (ctx : BuildContext) (h : list logOp) : res BuildContext :=
  match h with [] => Ok ctx | o :: h => let* ctx := logStep ctx o in logRun ctx h end.
