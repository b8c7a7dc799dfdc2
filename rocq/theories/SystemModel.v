(** The whole system: one host client (ClientModel.v) and one server (DispatchModel.v,
    ServerModel.v) joined by two links.

    The links do not duplicate frames, but may lose, delay and reorder them at
    will; a FIFO link is the special case in which position 0 is always taken and
    nothing is lost.  On its way to the client a frame may also be cut short, as
    happens when the device is interrupted in the middle of a transmission
    (embassy_usb_v0_4.rs:459-507, C16), and empty frames may appear (C54, C62).
    That real transports do no worse is the subject of UsbThm.v, WebUsbThm.v,
    AccThm.v and ChanThm.v.

    [enc] is the serialization of what the server sends (postcard, an arbitrary
    function here); [task] is the code of a spawned handler (dispatch_macro.rs:77-91,
    106-114: a user function given the spawn context, the header, the request and a
    clone of the sender). *)
From Coq Require Import NArith List Bool Arith.
From Verif Require Import KeyModel HeaderModel MinKeyModel SchemaModel MacroModel DispatchModel SubModel ClientModel.
Import ListNotations.

Fixpoint remove_nth {A} (i : nat) (l : list A) : list A :=
  match l, i with
  | [], _ => []
  | _ :: tl, O => tl
  | x :: tl, S j => x :: remove_nth j tl
  end.

Section System.
  Variable Val Ctx SCtx : Type.
  Variable std : StdKeys.
  Variable net : Trace Val SCtx -> VarHeader -> Payload Val -> TxRes.
  Variable can_spawn : Trace Val SCtx -> nat -> bool.
  Variable kkind : VarKeyKind.
  Variable spawn_ctxt : Ctx -> Ctx * SCtx.
  Variable d : Dispatcher Val Ctx.
  Variable enc : Payload Val -> list N.
  Variable task : nat -> SCtx -> VarHeader -> Val -> HProg Val unit.
  Variable cfg : Config.

  Record Sys := MkSys {
    y_client : Client;
    y_up : list (list N);              (* frames on their way to the server *)
    y_down : list (list N);            (* frames on their way to the client *)
    y_ctx : Ctx;
    y_trace : Trace Val SCtx;          (* everything the server did *)
    y_tasks : list (HProg Val unit);   (* background and spawned tasks, what remains of them *)
    y_serving : bool                   (* the server loop runs *)
  }.

  (** [bg]: code that runs beside the server from the start with a clone of its
      [Sender] (server/mod.rs:464-467 [Server::sender]; e.g. a task publishing log
      messages, example/firmware/src/bin/logging.rs:100, or measurements).  It transmits
      through the same interface as spawned handlers. *)
  Definition sys_new (bg : list (HProg Val unit)) (ctx : Ctx) : Sys := MkSys client_new [] [] ctx [] bg true.

  Inductive SysLabel :=
  | SClient (l : Label)     (* a step of the client, except receiving *)
  | SRecv (i : nat)         (* the client receives frame [i] of its link *)
  | SServe (i : nat)        (* the server receives and dispatches frame [i] of its link *)
  | STask (i : nat)         (* a background or spawned task sends its next frame *)
  | SLoseUp (i : nat) | SLoseDown (i : nat)
  | SCutDown (i n : nat)    (* only the first [n] bytes of frame [i] get through *)
  | SEmptyDown (i : nat).   (* an empty frame appears *)

  (** What a stretch of server history put on the link.  A transmission that
      reported an error may have reached the link or not: it is put there and may
      be lost like any other frame. *)
  Definition frames_sent (tr : Trace Val SCtx) : list (list N) :=
    flat_map (fun e => match e with EvSend _ h p _ => [rpc_to_bytes (MkFrame h (enc p))] | _ => [] end) tr.

  Definition tasks_of (tr : Trace Val SCtx) : list (HProg Val unit) :=
    flat_map (fun e => match e with EvSpawn n sc h req true => [task n sc h req] | _ => [] end) tr.

  Definition wire_of (e : list Ev) : list (list N) :=
    flat_map (fun x => match x with EvWire b => [b] | _ => [] end) e.

  Definition sys_step (l : SysLabel) (s : Sys) : option Sys :=
    match l with
    | SClient (LRecv _) => None
    | SClient l =>
      match step cfg l (y_client s) with
      | Some (c, e) => Some (MkSys c (y_up s ++ wire_of e) (y_down s) (y_ctx s) (y_trace s) (y_tasks s) (y_serving s))
      | None => None
      end
    | SRecv i =>
      match nth_error (y_down s) i with
      | Some b =>
        match step cfg (LRecv b) (y_client s) with
        | Some (c, _) => Some (MkSys c (y_up s) (remove_nth i (y_down s)) (y_ctx s) (y_trace s) (y_tasks s) (y_serving s))
        | None => None
        end
      | None => None
      end
    (** server/mod.rs:420-454: one turn of the loop (cf. ServerModel.run) *)
    | SServe i =>
      if y_serving s then
        match nth_error (y_up s) i with
        | Some b =>
          match take_from_slice b with
          | Panicked => None
          | Done None => Some (MkSys (y_client s) (remove_nth i (y_up s)) (y_down s) (y_ctx s) (y_trace s) (y_tasks s) true)
          | Done (Some (hdr, body)) =>
            let '(ctx, res, tr) := handle Val Ctx SCtx std net can_spawn kkind spawn_ctxt d (y_ctx s) hdr body (y_trace s) in
            let new := skipn (length (y_trace s)) tr in
            Some (MkSys (y_client s) (remove_nth i (y_up s)) (y_down s ++ frames_sent new) ctx tr (y_tasks s ++ tasks_of new)
                        (match res with TxErr TxConnectionClosed | TxErr TxTimeout => false | _ => true end))
          end
        | None => None
        end
      else None
    | STask i =>
      match nth_error (y_tasks s) i with
      | Some (HSend key seq p k) =>
        let (r, tr) := send_keyed Val SCtx net kkind ByHandler seq key p (y_trace s) in
        Some (MkSys (y_client s) (y_up s) (y_down s ++ frames_sent (skipn (length (y_trace s)) tr)) (y_ctx s) tr
                    (set_nth i (k r) (y_tasks s)) (y_serving s))
      | _ => None
      end
    | SLoseUp i =>
      match nth_error (y_up s) i with
      | Some _ => Some (MkSys (y_client s) (remove_nth i (y_up s)) (y_down s) (y_ctx s) (y_trace s) (y_tasks s) (y_serving s))
      | None => None
      end
    | SLoseDown i =>
      match nth_error (y_down s) i with
      | Some _ => Some (MkSys (y_client s) (y_up s) (remove_nth i (y_down s)) (y_ctx s) (y_trace s) (y_tasks s) (y_serving s))
      | None => None
      end
    | SCutDown i n =>
      match nth_error (y_down s) i with
      | Some b => Some (MkSys (y_client s) (y_up s) (set_nth i (firstn n b) (y_down s)) (y_ctx s) (y_trace s) (y_tasks s) (y_serving s))
      | None => None
      end
    | SEmptyDown i => Some (MkSys (y_client s) (y_up s) (firstn i (y_down s) ++ [] :: skipn i (y_down s)) (y_ctx s) (y_trace s) (y_tasks s) (y_serving s))
    end.

  (** The client step that a system step contains, if any. *)
  Definition client_label (l : SysLabel) (s : Sys) : option Label :=
    match l with
    | SClient l => Some l
    | SRecv i => option_map LRecv (nth_error (y_down s) i)
    | _ => None
    end.

  (** A history, with what the client did and showed, step by step. *)
  Fixpoint sys_run (ls : list SysLabel) (s : Sys) : option (Sys * list Label * list (list Ev)) :=
    match ls with
    | [] => Some (s, [], [])
    | l :: tl =>
      match sys_step l s with
      | None => None
      | Some s1 =>
        match sys_run tl s1 with
        | None => None
        | Some (s2, cl, es) =>
          match client_label l s with
          | Some x => match step cfg x (y_client s) with Some (_, e) => Some (s2, x :: cl, e :: es) | None => None end
          | None => Some (s2, cl, es)
          end
        end
      end
    end.
End System.
