(** The whole system over the in-memory channels: the host client (ClientModel.v) with
    host_client/test_channels.rs and the server, await by await (AsyncModel.v), on
    server/impls/test_channels.rs, joined by two bounded channels (ChanModel.v).

    Nothing is new here but the composition and what bounded channels bring with them: a
    sender waits while its channel is full, so the two sides can hold each other up.
    Transmitting, receiving and failing are [chan_send], [chan_receive] and
    [host_receive] of ChanModel.v, applied to the frames that are on their way.

    Simplified: the server is dropped by its owner only after [Server::run] returned, and
    is not run again. *)
From Coq Require Import NArith List Bool Arith.
From Verif Require Import KeyModel HeaderModel MinKeyModel SchemaModel MacroModel DispatchModel SubModel ClientModel ChanModel SystemModel AsyncModel.
Import ListNotations.

Section ChanSys.
  Variable Val Ctx SCtx : Type.
  Variable std : StdKeys.
  Variable can_spawn : Trace Val SCtx -> nat -> bool.
  Variable kkind : VarKeyKind.
  Variable spawn_ctxt : Ctx -> Ctx * SCtx.
  Variable d : Dispatcher Val Ctx.
  Variable enc : Payload Val -> list N.
  Variable task : nat -> SCtx -> VarHeader -> Val -> HProg Val unit.
  Variable cfg : Config.

  (** The capacities of the two channels, and the size of the server's receive buffer
      ([Settings::buf], server test_channels.rs:46-47). *)
  Variable cap_up cap_down buf : nat.

  Record CSys := MkCSys {
    cs_a : ASys Val Ctx SCtx;   (* [y_up] and [y_down] are what the channels hold *)
    cs_stopped : bool;          (* the [Stopper] of [new_server_stoppable] was stopped *)
    cs_ended : bool;            (* [receive] found the channel closed: [run] returned *)
    cs_dropped : bool           (* the [Server] was dropped *)
  }.
  Definition csys_new (bg : list (HProg Val unit)) (ctx : Ctx) : CSys := MkCSys (asys_new Val Ctx SCtx bg ctx) false false false.

  Inductive CLabel :=
  | CClient (l : Label)                       (* a step of the client that does not involve its transport *)
  | COut                                      (* the client's out worker sends the frame it holds *)
  | CRecv                                     (* the client's in worker receives *)
  | CServe (prefer_stop : bool)               (* the server receives and begins to dispatch *)
  | CSend (prefer_stop : bool) (who : option nat)   (* the server, respectively a task, sends a frame and carries on *)
  | CStop                                     (* [Stopper::stop] *)
  | CDrop.                                    (* the owner drops the server after [run] returned *)

  Notation Y := (Sys Val Ctx SCtx).
  Notation client c := (y_client _ _ _ (a_sys _ _ _ (cs_a c))).
  Notation up c := (y_up _ _ _ (a_sys _ _ _ (cs_a c))).
  Notation down c := (y_down _ _ _ (a_sys _ _ _ (cs_a c))).
  Notation tasks c := (y_tasks _ _ _ (a_sys _ _ _ (cs_a c))).
  Notation serving c := (y_serving _ _ _ (a_sys _ _ _ (cs_a c))).
  Notation a_step net := (a_step Val Ctx SCtx std net can_spawn kkind spawn_ctxt d enc task cfg).

  (** Whether some sender is left: the server's own, or one that a task holds (a task that
      finished dropped its clone). *)
  Definition sender_left (c : CSys) : bool :=
    (negb (cs_dropped c) || existsb (fun t => match t with HSend _ _ _ _ => true | HRet _ => false end) (tasks c))%bool.

  (** The channels, as their users find them.  The client's workers own its two ends and
      drop them when they end (host_client/util.rs:153-213); the server owns the other
      receiver.  Only the server's ends have a stopper. *)
  Definition up_for_client (c : CSys) : Chan := MkChan cap_up (up c) true (negb (cs_dropped c)) false.
  Definition up_for_server (c : CSys) : Chan := MkChan cap_up (up c) (c_out_alive (client c)) true (cs_stopped c).
  Definition down_for_client (c : CSys) : Chan := MkChan cap_down (down c) (sender_left c) true false.
  Definition down_for_server (c : CSys) : Chan := MkChan cap_down (down c) true (c_in_alive (client c)) (cs_stopped c).

  Definition with_a (c : CSys) (a : ASys Val Ctx SCtx) : CSys := MkCSys a (cs_stopped c) (cs_ended c) (cs_dropped c).
  Definition set_frames (up down : list (list N)) (a : ASys Val Ctx SCtx) : ASys Val Ctx SCtx :=
    let s := a_sys _ _ _ a in
    MkASys _ _ _ (MkSys _ _ _ (y_client _ _ _ s) up down (y_ctx _ _ _ s) (y_trace _ _ _ s) (y_tasks _ _ _ s) (y_serving _ _ _ s)) (a_cur _ _ _ a).

  (** A step of the client (it puts nothing on the link unless it is [LOutSent]). *)
  Definition client_step (l : Label) (c : CSys) : option (CSys * option (Label * list Ev)) :=
    match step cfg l (client c), a_step (fun _ _ _ => TxOk) (ASystem (SClient l)) (cs_a c) with
    | Some (_, e), Some a => Some (with_a c a, Some (l, e))
    | _, _ => None
    end.

  (** One step; the second component is the step of the client it contains. *)
  Definition c_step (l : CLabel) (c : CSys) : option (CSys * option (Label * list Ev)) :=
    match l with
    | CClient (LRecv _ | LInFail | LOutSent | LOutFail _ | LOutEnd true) => None
    | CClient l => client_step l c
    (** host test_channels.rs:74-78 *)
    | COut =>
      match snd (chan_send false [] (up_for_client c)) with
      | SentOk => client_step LOutSent c
      | SendClosed => client_step (LOutFail false) c
      | SendWaiting => None
      end
    (** host test_channels.rs:58-69 *)
    | CRecv =>
      match host_receive (down_for_client c) with
      | (_, CGot b) =>
        match step cfg (LRecv b) (client c), a_step (fun _ _ _ => TxOk) (ASystem (SRecv 0)) (cs_a c) with
        | Some (_, e), Some a => Some (with_a c a, Some (LRecv b, e))
        | _, _ => None
        end
      | (_, CClosed) => client_step LInFail c
      | _ => None
      end
    (** server/mod.rs:420-454, server test_channels.rs:254-278 *)
    | CServe prefer_stop =>
      match a_cur _ _ _ (cs_a c) with
      | Some _ => None
      | None =>
        if (serving c && negb (cs_ended c))%bool then
          match chan_receive prefer_stop buf (up_for_server c) with
          | (_, CGot _) => match a_step (fun _ _ _ => TxOk) (ASystem (SServe 0)) (cs_a c) with Some a => Some (with_a c a, None) | None => None end
          | (ch, CTooLarge) => Some (with_a c (set_frames (ch_queue ch) (down c) (cs_a c)), None)
          | (_, CClosed) => Some (MkCSys (cs_a c) (cs_stopped c) true (cs_dropped c), None)
          | (_, CWaiting) => None
          end
        else None
      end
    (** server test_channels.rs:131-149; a frame that is not sent never gets onto the
        channel *)
    | CSend prefer_stop who =>
      let l := match who with None => AResume | Some i => ASystem (STask i) end in
      match snd (chan_send prefer_stop [] (down_for_server c)) with
      | SentOk => match a_step (fun _ _ _ => TxOk) l (cs_a c) with Some a => Some (with_a c a, None) | None => None end
      | SendClosed =>
        match a_step (fun _ _ _ => TxErr TxConnectionClosed) l (cs_a c) with
        | Some a => Some (with_a c (set_frames (up c) (down c) a), None)
        | None => None
        end
      | SendWaiting => None
      end
    | CStop => Some (MkCSys (cs_a c) true (cs_ended c) (cs_dropped c), None)
    | CDrop => if (cs_ended c || negb (serving c))%bool then Some (MkCSys (cs_a c) (cs_stopped c) (cs_ended c) true, None) else None
    end.

  (** A history, with what the client did and showed. *)
  Fixpoint c_run (ls : list CLabel) (c : CSys) : option (CSys * list Label * list (list Ev)) :=
    match ls with
    | [] => Some (c, [], [])
    | l :: tl =>
      match c_step l c with
      | None => None
      | Some (c1, ce) =>
        match c_run tl c1 with
        | None => None
        | Some (c2, cl, es) =>
          match ce with
          | Some (x, e) => Some (c2, x :: cl, e :: es)
          | None => Some (c2, cl, es)
          end
        end
      end
    end.
End ChanSys.
