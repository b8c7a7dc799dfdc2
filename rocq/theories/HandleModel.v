(** Handles of a client: cloning [HostClient], using clones from several places, and
    letting go of them.
    Source: /repo/source/postcard-rpc/src/host_client/mod.rs:176-184 (the struct), 767-780
    ([close], [is_closed], [wait_closed]), 873-886 ([Clone]) and
    /repo/source/postcard-rpc/src/host_client/util.rs:34-66 ([Stopper]), 153-185 (the out
    worker).

    Every clone of a client holds a sender of the outgoing channel, and nobody else does.
    Once the last clone is dropped the out worker, having taken everything out of the
    channel, finds it closed ([rec.recv()] gives [None], util.rs:177-180), returns, and
    stops everything else (util.rs:162-167).

    The layer is put on top of any model that contains a client: [step_below] is that
    model's step, [client_of] finds the client in its state, and [as_below] says which of
    its labels a step of the client alone is.  A call of the user is made through a handle;
    its future borrows the handle (all methods take [&self]), so that a handle cannot be
    dropped while one of its futures is alive.  A subscription borrows nothing.
    Simplified: a call of [subscribe*] or [close] is one step, taken when it gets the lock,
    so that it never holds a handle across steps.

    External code, from its documentation: [tokio::sync::mpsc::Receiver::recv] gives [None]
    once the channel is empty and all senders are dropped; [maitake_sync::WaitQueue::wait]
    completes once the queue is closed. *)
From Coq Require Import NArith List Bool Arith.
From Verif Require Import KeyModel HeaderModel SubModel ClientModel ChanSysModel.
Import ListNotations.

(** The calls that need a handle; the others are steps of futures, of the workers, or use
    a subscription (mod.rs:785-871). *)
Definition is_call (l : Label) : bool :=
  match l with
  | LRequest _ _ _ | LRequestRaw _ _ | LPublish _ | LSubClosed | LClose => true
  | LSub (SubscribeExclusive _ _ | SubscribeLegacy _ _ | SubscribeMulti _ _) => true
  | _ => false
  end.

Record Handles := MkHandles {
  hs_alive : list bool;         (* the handles made so far: which are alive *)
  hs_reqs : list nat;           (* for each request: the handle it was made with *)
  hs_pubs : list nat;           (* for each publication: likewise *)
  hs_waits : list (option nat)  (* calls of [wait_closed] that have not returned *)
}.
Definition handles_new : Handles := MkHandles [true] [] [] [].

Definition alive (hs : Handles) (h : nat) : bool := nth h (hs_alive hs) false.
Definition some_alive (hs : Handles) : bool := existsb (fun b => b) (hs_alive hs).

(** Some future borrows handle [h]. *)
Definition req_borrows (h : nat) (qo : Req * nat) : bool :=
  ((snd qo =? h) && match rq_pc (fst qo) with PEnded => false | _ => true end)%bool.
Definition pub_borrows (h : nat) (po : option RpcFrame * nat) : bool :=
  ((snd po =? h) && match fst po with Some _ => true | None => false end)%bool.
Definition wait_borrows (h : nat) (w : option nat) : bool := match w with Some x => x =? h | None => false end.
Definition borrowed (hs : Handles) (c : Client) (h : nat) : bool :=
  (existsb (req_borrows h) (combine (c_reqs c) (hs_reqs hs)) ||
   existsb (pub_borrows h) (combine (c_pubs c) (hs_pubs hs)) ||
   existsb (wait_borrows h) (hs_waits hs))%bool.

(** A call through handle [h] is made. *)
Definition called (h : nat) (l : Label) (hs : Handles) : Handles :=
  match l with
  | LRequest _ _ _ | LRequestRaw _ _ => MkHandles (hs_alive hs) (hs_reqs hs ++ [h]) (hs_pubs hs) (hs_waits hs)
  | LPublish _ => MkHandles (hs_alive hs) (hs_reqs hs) (hs_pubs hs ++ [h]) (hs_waits hs)
  | _ => hs
  end.

Section Handles.
  Variable State L : Type.
  Variable step_below : L -> State -> option (State * option (Label * list Ev)).
  Variable client_of : State -> Client.
  Variable as_below : Label -> L.
  (** The labels below that are calls of the user. *)
  Variable call_below : L -> bool.

  Record HState := MkHState { h_below : State; h_handles : Handles }.
  Definition h_new (s : State) : HState := MkHState s handles_new.
  Definition h_client (s : HState) : Client := client_of (h_below s).

  Inductive HLabel :=
  | HClone (h : nat) | HDrop (h : nat)
  | HCall (h : nat) (l : Label)        (* a call through handle [h] *)
  | HGo (l : L)                        (* any other step of the model below *)
  | HEnd                               (* the out worker finds its channel closed and empty *)
  | HWait (h : nat) | HWaitDone (i : nat) | HWaitCancel (i : nat).

  Definition listed (ce : option (Label * list Ev)) : list (Label * list Ev) := match ce with Some x => [x] | None => [] end.

  (** One step, with the steps of the client it contains. *)
  Definition h_step (l : HLabel) (s : HState) : option (HState * list (Label * list Ev)) :=
    let hs := h_handles s in
    match l with
    (** mod.rs:873-886 *)
    | HClone h =>
      if alive hs h then Some (MkHState (h_below s) (MkHandles (hs_alive hs ++ [true]) (hs_reqs hs) (hs_pubs hs) (hs_waits hs)), []) else None
    | HDrop h =>
      if (alive hs h && negb (borrowed hs (h_client s) h))%bool then
        Some (MkHState (h_below s) (MkHandles (set_nth h false (hs_alive hs)) (hs_reqs hs) (hs_pubs hs) (hs_waits hs)), [])
      else None
    | HCall h l =>
      if (alive hs h && is_call l)%bool then
        match step_below (as_below l) (h_below s) with
        | Some (s', ce) => Some (MkHState s' (called h l hs), listed ce)
        | None => None
        end
      else None
    | HGo l =>
      if call_below l then None
      else match step_below l (h_below s) with Some (s', ce) => Some (MkHState s' hs, listed ce) | None => None end
    (** util.rs:177-180, then 162-167: [stop.stop()], and the worker ends with nothing in
        its hands; which is what [close] and the end of the worker amount to. *)
    | HEnd =>
      match c_sending (h_client s), c_out (h_client s) with
      | None, [] =>
        if (negb (some_alive hs) && c_out_alive (h_client s))%bool then
          match step_below (as_below LClose) (h_below s) with
          | Some (s1, ce1) =>
            match step_below (as_below (LOutEnd false)) s1 with
            | Some (s2, ce2) => Some (MkHState s2 hs, listed ce1 ++ listed ce2)
            | None => None
            end
          | None => None
          end
        else None
      | _, _ => None
      end
    (** mod.rs:776-780, util.rs:49-53 *)
    | HWait h =>
      if alive hs h then Some (MkHState (h_below s) (MkHandles (hs_alive hs) (hs_reqs hs) (hs_pubs hs) (hs_waits hs ++ [Some h])), []) else None
    | HWaitDone i =>
      match nth_error (hs_waits hs) i with
      | Some (Some _) =>
        if c_stopped (h_client s) then Some (MkHState (h_below s) (MkHandles (hs_alive hs) (hs_reqs hs) (hs_pubs hs) (set_nth i None (hs_waits hs))), []) else None
      | _ => None
      end
    | HWaitCancel i =>
      match nth_error (hs_waits hs) i with
      | Some (Some _) => Some (MkHState (h_below s) (MkHandles (hs_alive hs) (hs_reqs hs) (hs_pubs hs) (set_nth i None (hs_waits hs))), [])
      | _ => None
      end
    end.

  (** A history, with what the client did and showed. *)
  Fixpoint h_run (ls : list HLabel) (s : HState) : option (HState * list Label * list (list Ev)) :=
    match ls with
    | [] => Some (s, [], [])
    | l :: tl =>
      match h_step l s with
      | None => None
      | Some (s1, x) =>
        match h_run tl s1 with
        | None => None
        | Some (s2, cl, es) => Some (s2, map fst x ++ cl, map snd x ++ es)
        end
      end
    end.
End Handles.

(** The client by itself. *)
Definition client_below (cfg : Config) (l : Label) (c : Client) : option (Client * option (Label * list Ev)) :=
  match step cfg l c with Some (c', e) => Some (c', Some (l, e)) | None => None end.

(** The client, the server and the channels between them (ChanSysModel.v): which labels
    are calls of the user. *)
Definition chan_call (l : CLabel) : bool := match l with CClient l => is_call l | _ => false end.
