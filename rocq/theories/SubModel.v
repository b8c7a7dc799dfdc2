(** Model of the host client's subscriptions.
    Source: /repo/source/postcard-rpc/src/host_client/mod.rs (subscribe*, the
    subscription types) and /repo/source/postcard-rpc/src/host_client/util.rs
    ([Subscriptions], [in_worker], [in_worker_inner]).

    External code, from its documentation:
    - [tokio::sync::mpsc] bounded channel: FIFO of at most [cap] messages;
      [channel(0)] panics; [try_send] fails with [Closed] if the receiver was
      dropped, with [Full] if the queue is full; [is_closed] says whether the
      receiver was dropped; [recv] gives [None] once the queue is empty and the
      sender is gone.
    - [tokio::sync::broadcast]: a ring of capacity [next_power_of_two(depth)];
      [channel(0)] panics; [send] fails if there is no receiver; [subscribe]
      starts at the present tail; a receiver further than the capacity behind the
      tail gets [Lagged(n)] and skips to the oldest message still held; [recv]
      gives [Closed] once it has read everything and the sender is gone.
    - [tokio::sync::Mutex]: each critical section is atomic.
    Not modelled: both channels also panic for absurd depths (more than
    [Semaphore::MAX_PERMITS] permits, more than [usize::MAX / 2] slots). *)
From Coq Require Import NArith List Bool Arith.
From Verif Require Import KeyModel HeaderModel.
Import ListNotations.

(** mod.rs:902-908 [RpcFrame]. *)
Record RpcFrame := MkFrame { f_hdr : VarHeader; f_body : list N }.

(** mod.rs:911-919 [RpcFrame::to_bytes]. *)
Definition rpc_to_bytes (f : RpcFrame) : list N := write_to_vec (f_hdr f) ++ f_body f.

(** An mpsc channel as seen by its receiver.  Whether the sender is still alive
    is whether the subscription list still refers to the channel. *)
Record Mpsc := MkMpsc { m_cap : nat; m_queue : list RpcFrame; m_rx : bool }.

(** A broadcast channel: its capacity and everything ever sent on it (the ring
    holds the last [b_cap] of these; receivers never look further back). *)
Record Bcast := MkBcast { b_cap : nat; b_log : list RpcFrame }.

(** A broadcast receiver: its channel, its position, and whether it is alive. *)
Record MultiRx := MkMrx { r_chan : nat; r_next : nat; r_alive : bool }.

(** util.rs:22-27 [Subscriptions], together with the channels it refers to.
    Channels and receivers are named by their index. *)
Record Subs := MkSubs {
  exclusive_list : list (Key8 * nat);
  broadcast_list : list (Key8 * nat);
  s_stopped : bool;
  s_chans : list Mpsc;
  s_bcasts : list Bcast;
  s_mrxs : list MultiRx;
  (** util.rs:300-307: the worker waiting, lock held, for room in an exclusive
      channel; with the channel, the frame and [remove_mul_sub]. *)
  s_blocked : option (nat * RpcFrame * bool)
}.
Definition subs_new : Subs := MkSubs [] [] false [] [] [] None.

Definition set_nth {A} (n : nat) (x : A) (l : list A) : list A :=
  match skipn n l with
  | [] => l
  | _ :: tl => firstn n l ++ x :: tl
  end.

(** The pattern [VarKey::Key8( *k) == key] of util.rs:243, 270. *)
Definition key_matches (key : VarKey) (e : Key8 * nat) : bool := varkey_eqb (VKey8 (fst e)) key.

(** Smallest power of two not below [n] ([n >= 1]). *)
Fixpoint pow2_from (fuel p n : nat) : nat :=
  match fuel with
  | O => p
  | S f => if n <=? p then p else pow2_from f (2 * p) n
  end.
Definition next_power_of_two (n : nat) : nat := pow2_from n 1 n.

Inductive SubRes :=
| Subscribed (id : nat)
| IoClosed
| AlreadySubscribed
| SubPanic.

Definition with_exclusive (s : Subs) (l : list (Key8 * nat)) (ch : list Mpsc) : Subs :=
  MkSubs l (broadcast_list s) (s_stopped s) ch (s_bcasts s) (s_mrxs s) (s_blocked s).

(** [entry.1 = tx] for the first entry with key [k]. *)
Fixpoint replace_first (k : Key8) (id : nat) (l : list (Key8 * nat)) : list (Key8 * nat) :=
  match l with
  | [] => []
  | e :: tl => if key8_eqb (fst e) k then (fst e, id) :: tl else e :: replace_first k id tl
  end.

(** mod.rs:684-721, 738-758 [subscribe_inner_exclusive(_raw)] and, with
    [legacy = true], mod.rs:583-615, 634-654 [subscribe_inner(_raw)]. *)
Definition subscribe_mpsc (legacy : bool) (k : Key8) (depth : nat) (s : Subs) : Subs * SubRes :=
  match depth with
  | O => (s, SubPanic)
  | _ =>
    let id := length (s_chans s) in
    let chans' := s_chans s ++ [MkMpsc depth [] true] in
    if s_stopped s then (s, IoClosed)
    else
      match find (fun e => key8_eqb (fst e) k) (exclusive_list s) with
      | Some (_, old) =>
        let live := match nth_error (s_chans s) old with Some c => m_rx c | None => false end in
        if (live && negb legacy)%bool then (s, AlreadySubscribed)
        else (with_exclusive s (replace_first k id (exclusive_list s)) chans', Subscribed id)
      | None => (with_exclusive s (exclusive_list s ++ [(k, id)]) chans', Subscribed id)
      end
  end.

(** mod.rs:487-515, 532-551 [subscribe_multi_inner(_raw)]. *)
Definition subscribe_multi (k : Key8) (depth : nat) (s : Subs) : Subs * SubRes :=
  if s_stopped s then (s, IoClosed)
  else
    let id := length (s_mrxs s) in
    match find (fun e => key8_eqb (fst e) k) (broadcast_list s) with
    | Some (_, c) =>
      let pos := match nth_error (s_bcasts s) c with Some b => length (b_log b) | None => 0 end in
      (MkSubs (exclusive_list s) (broadcast_list s) (s_stopped s) (s_chans s) (s_bcasts s)
              (s_mrxs s ++ [MkMrx c pos true]) (s_blocked s), Subscribed id)
    | None =>
      match depth with
      | O => (s, SubPanic)
      | _ =>
        let c := length (s_bcasts s) in
        (MkSubs (exclusive_list s) (broadcast_list s ++ [(k, c)]) (s_stopped s) (s_chans s)
                (s_bcasts s ++ [MkBcast (next_power_of_two depth) []])
                (s_mrxs s ++ [MkMrx c 0 true]) (s_blocked s), Subscribed id)
      end
    end.

(** Is there a receiver of broadcast channel [c]? *)
Definition has_receiver (c : nat) (rxs : list MultiRx) : bool :=
  existsb (fun r => (r_alive r && (r_chan r =? c))%bool) rxs.

(** [broadcast::Sender::send]: the new channels, and whether it failed. *)
Definition bcast_send (c : nat) (f : RpcFrame) (s : Subs) : list Bcast * bool :=
  if has_receiver c (s_mrxs s) then
    match nth_error (s_bcasts s) c with
    | Some b => (set_nth c (MkBcast (b_cap b) (b_log b ++ [f])) (s_bcasts s), false)
    | None => (s_bcasts s, false)
    end
  else (s_bcasts s, true).

Inductive TrySend := TsOk | TsFull | TsClosed.

(** [mpsc::Sender::try_send]. *)
Definition mpsc_try_send (c : nat) (f : RpcFrame) (chans : list Mpsc) : list Mpsc * TrySend :=
  match nth_error chans c with
  | None => (chans, TsClosed)
  | Some ch =>
    if m_rx ch then
      if length (m_queue ch) <? m_cap ch then
        (set_nth c (MkMpsc (m_cap ch) (m_queue ch ++ [f]) true) chans, TsOk)
      else (chans, TsFull)
    else (chans, TsClosed)
  end.

(** util.rs:311-322: removal of dead subscriptions: [retain] keeps the entries
    whose key does not match the received one. *)
Definition retain (remove : bool) (key : VarKey) (l : list (Key8 * nat)) : list (Key8 * nat) :=
  if remove then filter (fun e => negb (key_matches key e)) l else l.

Definition finish (key : VarKey) (rem_exl rem_mul : bool) (s : Subs) : Subs :=
  MkSubs (retain rem_exl key (exclusive_list s)) (retain rem_mul key (broadcast_list s))
         (s_stopped s) (s_chans s) (s_bcasts s) (s_mrxs s) None.

(** What becomes of a frame in the subscription part of [in_worker_inner]. *)
Inductive Delivery :=
| Handled          (* [handled == true] *)
| NotHandled       (* offered to the pending requests next *)
| Blocking.        (* waiting for room, util.rs:300-307 *)

(** util.rs:232-327: the locked part of [in_worker_inner] for one frame.
    [no_wait]: [host_ctx.subscription_timeout.is_zero()]. *)
Definition deliver (no_wait : bool) (f : RpcFrame) (s : Subs) : Subs * Delivery :=
  let key := hdr_key (f_hdr f) in
  (** 239-262 broadcast *)
  let '(s1, h1, rem_mul) :=
    match find (key_matches key) (broadcast_list s) with
    | Some (_, c) =>
      let '(bs, failed) := bcast_send c f s in
      (MkSubs (exclusive_list s) (broadcast_list s) (s_stopped s) (s_chans s) bs (s_mrxs s) (s_blocked s), true, failed)
    | None => (s, false, false)
    end in
  (** 264-309 exclusive *)
  match find (key_matches key) (exclusive_list s1) with
  | Some (_, c) =>
    let '(chans, r) := mpsc_try_send c f (s_chans s1) in
    let s2 := with_exclusive s1 (exclusive_list s1) chans in
    match r with
    | TsOk => (finish key false rem_mul s2, Handled)
    | TsFull =>
      if no_wait then (finish key false rem_mul s2, Handled)
      else (MkSubs (exclusive_list s2) (broadcast_list s2) (s_stopped s2) (s_chans s2) (s_bcasts s2) (s_mrxs s2)
                   (Some (c, f, rem_mul)), Blocking)
    | TsClosed => (finish key true rem_mul s2, Handled)
    end
  | None => (finish key false rem_mul s1, if h1 then Handled else NotHandled)
  end.

(** util.rs:301-307: the wait ends: the message got in, or the receiver went
    away, or the time ran out.  [None]: that outcome is not possible now. *)
Inductive WaitEnd := RoomFound | ReceiverGone | TimeUp.

Definition unblock (w : WaitEnd) (s : Subs) : option Subs :=
  match s_blocked s with
  | None => None
  | Some (c, f, rem_mul) =>
    let key := hdr_key (f_hdr f) in
    match w, mpsc_try_send c f (s_chans s) with
    | RoomFound, (chans, TsOk) => Some (finish key false rem_mul (with_exclusive s (exclusive_list s) chans))
    | ReceiverGone, (_, TsClosed) => Some (finish key true rem_mul s)
    | TimeUp, _ => Some (finish key false rem_mul s)
    | _, _ => None
    end
  end.

(** Is the sender of exclusive channel [id] still in the list? *)
Definition connected (id : nat) (l : list (Key8 * nat)) : bool := existsb (fun e => snd e =? id) l.

Inductive RecvX := XGot (f : RpcFrame) | XEnded | XWaiting.

(** mod.rs:793-797 [RawSubscription::recv] (one poll). *)
Definition recv_exclusive (id : nat) (s : Subs) : Subs * RecvX :=
  match nth_error (s_chans s) id with
  | None => (s, XEnded)
  | Some ch =>
    match m_queue ch with
    | f :: q => (with_exclusive s (exclusive_list s) (set_nth id (MkMpsc (m_cap ch) q (m_rx ch)) (s_chans s)), XGot f)
    | [] => if connected id (exclusive_list s) then (s, XWaiting) else (s, XEnded)
    end
  end.

Inductive RecvM := MGot (f : RpcFrame) | MLagged (n : nat) | MClosed | MWaiting.

(** mod.rs:839-847 [RawMultiSubscription::recv] (one poll). *)
Definition recv_multi (id : nat) (s : Subs) : Subs * RecvM :=
  match nth_error (s_mrxs s) id with
  | None => (s, MClosed)
  | Some r =>
    let with_next n := MkSubs (exclusive_list s) (broadcast_list s) (s_stopped s) (s_chans s) (s_bcasts s)
                              (set_nth id (MkMrx (r_chan r) n (r_alive r)) (s_mrxs s)) (s_blocked s) in
    match nth_error (s_bcasts s) (r_chan r) with
    | None => (s, MClosed)
    | Some b =>
      let tail := length (b_log b) in
      let oldest := tail - b_cap b in
      if r_next r <? oldest then (with_next oldest, MLagged (oldest - r_next r))
      else
        match nth_error (b_log b) (r_next r) with
        | Some f => (with_next (S (r_next r)), MGot f)
        | None => if connected (r_chan r) (broadcast_list s) then (s, MWaiting) else (s, MClosed)
        end
    end
  end.

(** Dropping a subscription. *)
Definition drop_exclusive (id : nat) (s : Subs) : Subs :=
  match nth_error (s_chans s) id with
  | None => s
  | Some ch => with_exclusive s (exclusive_list s) (set_nth id (MkMpsc (m_cap ch) [] false) (s_chans s))
  end.
Definition drop_multi (id : nat) (s : Subs) : Subs :=
  match nth_error (s_mrxs s) id with
  | None => s
  | Some r => MkSubs (exclusive_list s) (broadcast_list s) (s_stopped s) (s_chans s) (s_bcasts s)
                     (set_nth id (MkMrx (r_chan r) (r_next r) false) (s_mrxs s)) (s_blocked s)
  end.

(** util.rs:207-212: the end of [in_worker]; a wait in progress is abandoned
    (the operate future is dropped by the [select!] of 200-206). *)
Definition stop_subs (s : Subs) : Subs :=
  MkSubs [] [] true (s_chans s) (s_bcasts s) (s_mrxs s) None.

(** Everything that can happen.  While the worker is blocked it holds the lock,
    so subscribing and delivering cannot happen. *)
Inductive SubOp :=
| SubscribeExclusive (k : Key8) (depth : nat)
| SubscribeLegacy (k : Key8) (depth : nat)
| SubscribeMulti (k : Key8) (depth : nat)
| Deliver (f : RpcFrame)
| Unblock (w : WaitEnd)
| ReceiveX (id : nat)
| ReceiveM (id : nat)
| DropX (id : nat)
| DropM (id : nat)
| StopWorker.

Inductive SubOut :=
| ORes (r : SubRes)
| ODelivery (d : Delivery)
| OX (r : RecvX)
| OM (r : RecvM)
| ONone.

(** A receive or drop on a subscription that was dropped cannot happen: the
    receiver was moved away. *)
Definition x_alive (id : nat) (s : Subs) : bool :=
  match nth_error (s_chans s) id with Some c => m_rx c | None => false end.
Definition m_alive (id : nat) (s : Subs) : bool :=
  match nth_error (s_mrxs s) id with Some r => r_alive r | None => false end.
Definition blocked (s : Subs) : bool := match s_blocked s with Some _ => true | None => false end.

Section Run.
  Variable no_wait : bool.

  Definition sub_step (o : SubOp) (s : Subs) : option (Subs * SubOut) :=
    match o with
    | SubscribeExclusive k d => if blocked s then None else let '(s', r) := subscribe_mpsc false k d s in Some (s', ORes r)
    | SubscribeLegacy k d => if blocked s then None else let '(s', r) := subscribe_mpsc true k d s in Some (s', ORes r)
    | SubscribeMulti k d => if blocked s then None else let '(s', r) := subscribe_multi k d s in Some (s', ORes r)
    | Deliver f => if (blocked s || s_stopped s)%bool then None else let '(s', d) := deliver no_wait f s in Some (s', ODelivery d)
    | Unblock w => match unblock w s with Some s' => Some (s', ODelivery Handled) | None => None end
    | ReceiveX id => if x_alive id s then let '(s', r) := recv_exclusive id s in Some (s', OX r) else None
    | ReceiveM id => if m_alive id s then let '(s', r) := recv_multi id s in Some (s', OM r) else None
    | DropX id => if x_alive id s then Some (drop_exclusive id s, ONone) else None
    | DropM id => if m_alive id s then Some (drop_multi id s, ONone) else None
    | StopWorker => Some (stop_subs s, ONone)
    end.

  (** A history; [None] if some step was not possible. *)
  Fixpoint sub_run (ops : list SubOp) (s : Subs) : option (Subs * list SubOut) :=
    match ops with
    | [] => Some (s, [])
    | o :: tl =>
      match sub_step o s with
      | None => None
      | Some (s1, e) =>
        match sub_run tl s1 with
        | None => None
        | Some (s2, es) => Some (s2, e :: es)
        end
      end
    end.
End Run.

(** Typed receives: mod.rs:810-819 [Subscription::recv] and mod.rs:861-876
    [MultiSubscription::recv]: frames that do not decode are skipped.  [fuel]
    bounds the number of skips; the number of queued frames suffices. *)
Section Typed.
  Variable M : Type.
  Variable dec : list N -> option M.

  Inductive TypedX := TXGot (m : M) | TXEnded | TXWaiting | TXFuel.
  Fixpoint recv_typed_x (fuel : nat) (id : nat) (s : Subs) : Subs * TypedX :=
    match fuel with
    | O => (s, TXFuel)
    | S fu =>
      match recv_exclusive id s with
      | (s', XEnded) => (s', TXEnded)
      | (s', XWaiting) => (s', TXWaiting)
      | (s', XGot f) =>
        match dec (f_body f) with
        | Some m => (s', TXGot m)
        | None => recv_typed_x fu id s'
        end
      end
    end.

  Inductive TypedM := TMGot (m : M) | TMLagged (n : nat) | TMClosed | TMWaiting | TMFuel.
  Fixpoint recv_typed_m (fuel : nat) (id : nat) (s : Subs) : Subs * TypedM :=
    match fuel with
    | O => (s, TMFuel)
    | S fu =>
      match recv_multi id s with
      | (s', MClosed) => (s', TMClosed)
      | (s', MWaiting) => (s', TMWaiting)
      | (s', MLagged n) => (s', TMLagged n)
      | (s', MGot f) =>
        match dec (f_body f) with
        | Some m => (s', TMGot m)
        | None => recv_typed_m fu id s'
        end
      end
    end.
End Typed.
