(** One device, one client after another.

    A client that is dropped or whose connection breaks is replaced by a new one, whose
    sequence numbers start again from 0 (host_client/mod.rs:199, 335).  On the device
    nothing starts again: the firmware calls [Server::run] in a loop (server/mod.rs:420-454
    returns when the connection is lost; example/firmware/src/bin/comms-02.rs and others
    call it again), the context and the spawned tasks stay, and so does a handler that is
    still at work (tasks are not cancelled, dispatch_macro.rs:77-91).  Frames that are still in
    the link stay there, too; where a transport forgets them, they are lost with
    [SLoseUp] and [SLoseDown]. *)
From Coq Require Import NArith List Bool Arith.
From Verif Require Import KeyModel HeaderModel MinKeyModel SchemaModel MacroModel PostcardModel DispatchModel SubModel ClientModel SystemModel AsyncModel.
Import ListNotations.

Section Session.
  Variable Val Ctx SCtx : Type.
  Variable std : StdKeys.
  Variable net : Trace Val SCtx -> VarHeader -> Payload Val -> TxRes.
  Variable can_spawn : Trace Val SCtx -> nat -> bool.
  Variable kkind : VarKeyKind.
  Variable spawn_ctxt : Ctx -> Ctx * SCtx.
  Variable d : Dispatcher Val Ctx.
  Variable enc : Payload Val -> list N.
  Variable task : nat -> SCtx -> VarHeader -> Val -> HProg Val unit.
  Variable cfg : Config.

  (** A new client connects, and the device serves it. *)
  Definition reconnect (a : ASys Val Ctx SCtx) : ASys Val Ctx SCtx :=
    let s := a_sys _ _ _ a in
    MkASys _ _ _ (MkSys _ _ _ client_new (y_up _ _ _ s) (y_down _ _ _ s) (y_ctx _ _ _ s) (y_trace _ _ _ s) (y_tasks _ _ _ s) true) (a_cur _ _ _ a).

  (** What happened while a client was connected: the state when it connected, the steps
      until the next one did, the state then, and what the client did and showed. *)
  Record Session := MkSession {
    se_start : ASys Val Ctx SCtx;
    se_steps : list ALabel;
    se_end : ASys Val Ctx SCtx;
    se_labels : list Label;
    se_events : list (list Ev)
  }.

  (** One client after another. *)
  Fixpoint sessions (hs : list (list ALabel)) (a : ASys Val Ctx SCtx) : option (list Session) :=
    match hs with
    | [] => Some []
    | ls :: tl =>
      match a_run Val Ctx SCtx std net can_spawn kkind spawn_ctxt d enc task cfg ls (reconnect a) with
      | None => None
      | Some (a', cl, es) =>
        match sessions tl a' with
        | None => None
        | Some rest => Some (MkSession (reconnect a) ls a' cl es :: rest)
        end
      end
    end.
End Session.
Arguments MkSession {Val Ctx SCtx}. Arguments se_start {Val Ctx SCtx}. Arguments se_steps {Val Ctx SCtx}.
Arguments se_end {Val Ctx SCtx}. Arguments se_labels {Val Ctx SCtx}. Arguments se_events {Val Ctx SCtx}.
