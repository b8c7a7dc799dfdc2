(** Specification vocabulary for subscriptions: histories, the reference bounded
    queue and the reference broadcast reader. *)
From Coq Require Import NArith List Bool Arith.
From Verif Require Import KeyModel HeaderModel SubModel.
Import ListNotations.

(** A history: what happened, with what outcome. *)
Definition Trace := list (SubOp * SubOut).

(** Subscription [id] was handed out for key [k] by one of the exclusive kinds of
    subscribe. *)
Definition obtained (tr : Trace) (k : Key8) (id : nat) : Prop :=
  exists d, In (SubscribeExclusive k d, ORes (Subscribed id)) tr \/
            In (SubscribeLegacy k d, ORes (Subscribed id)) tr.
(** The same for broadcast subscriptions. *)
Definition obtained_multi (tr : Trace) (k : Key8) (id : nat) : Prop :=
  exists d, In (SubscribeMulti k d, ORes (Subscribed id)) tr.

(** Subscription [id] is held by the user and its stream has not ended. *)
Definition live (s : Subs) (id : nat) : Prop :=
  x_alive id s = true /\ connected id (exclusive_list s) = true.

(** A frame is a message of the topic with key [k]: their keys agree at the
    shorter of the two lengths. *)
Definition of_topic (k : Key8) (f : RpcFrame) : bool := varkey_eqb (VKey8 k) (hdr_key (f_hdr f)).

(** Keys used in exclusive subscribes of a history (successful or not). *)
Definition exclusive_keys (ops : list SubOp) : list Key8 :=
  flat_map (fun o => match o with SubscribeExclusive k _ => [k] | SubscribeLegacy k _ => [k] | _ => [] end) ops.
Definition multi_keys (ops : list SubOp) : list Key8 :=
  flat_map (fun o => match o with SubscribeMulti k _ => [k] | _ => [] end) ops.

(** ** Reference bounded queue *)

(** What concerns one exclusive subscription. *)
Inductive QEv :=
| QArrive (f : RpcFrame)     (* a message of its topic arrives *)
| QRoom                      (* the delayed message is put in *)
| QTimeUp                    (* the delayed message is given up *)
| QRecv.                     (* the user asks for a message *)

(** State: the queue and the message being delayed, if any.  An arriving message
    is queued unless the queue holds [depth] messages already; then it is lost at
    once ([no_wait]) or delayed.  Receiving takes the oldest message. *)
Definition q_step (no_wait : bool) (depth : nat) (st : list RpcFrame * option RpcFrame) (e : QEv)
  : (list RpcFrame * option RpcFrame) * list RecvX :=
  let '(q, w) := st in
  match e with
  | QArrive f =>
    if length q <? depth then ((q ++ [f], None), [])
    else if no_wait then ((q, None), [])
    else ((q, Some f), [])
  | QRoom => match w with Some f => ((q ++ [f], None), []) | None => (st, []) end
  | QTimeUp => ((q, None), [])
  | QRecv => match q with [] => (st, [XWaiting]) | f :: q' => ((q', w), [XGot f]) end
  end.
Fixpoint q_run (no_wait : bool) (depth : nat) (st : list RpcFrame * option RpcFrame) (es : list QEv) : list RecvX :=
  match es with
  | [] => []
  | e :: tl => let '(st', o) := q_step no_wait depth st e in o ++ q_run no_wait depth st' tl
  end.

(** The part of a history that concerns subscription [id] to topic [k].
    [mine]: the last delivered frame was of topic [k]. *)
Fixpoint x_view (k : Key8) (id : nat) (mine : bool) (ops : list SubOp) : list QEv :=
  match ops with
  | [] => []
  | Deliver f :: tl => if of_topic k f then QArrive f :: x_view k id true tl else x_view k id false tl
  | Unblock RoomFound :: tl => if mine then QRoom :: x_view k id false tl else x_view k id false tl
  | Unblock TimeUp :: tl => if mine then QTimeUp :: x_view k id false tl else x_view k id false tl
  | ReceiveX i :: tl => if i =? id then QRecv :: x_view k id mine tl else x_view k id mine tl
  | _ :: tl => x_view k id mine tl
  end.
(** What the user of [id] is given in a history. *)
Fixpoint x_results (id : nat) (ops : list SubOp) (outs : list SubOut) : list RecvX :=
  match ops, outs with
  | ReceiveX i :: tl, OX r :: os => if i =? id then r :: x_results id tl os else x_results id tl os
  | _ :: tl, _ :: os => x_results id tl os
  | _, _ => []
  end.

(** Nothing in [ops] ends subscription [id] to topic [k]. *)
Definition x_undisturbed (k : Key8) (id : nat) (ops : list SubOp) : Prop :=
  ~ In StopWorker ops /\ ~ In (DropX id) ops /\ (forall d, ~ In (SubscribeLegacy k d) ops).

(** Among [keys], a frame of topic [k] in [ops] belongs to no other topic. *)
Definition no_confusion (k : Key8) (keys : list Key8) (ops : list SubOp) : Prop :=
  forall f k', In (Deliver f) ops -> of_topic k f = true -> In k' keys -> of_topic k' f = true -> k' = k.

(** ** Reference broadcast reader *)

Inductive REv := RArrive (f : RpcFrame) | RRecv.

(** [arrived]: all messages since subscribing; [pos]: how many of them were
    received or reported missed.  A reader more than [cap] behind is told how
    many it missed. *)
Definition r_step (cap : nat) (st : list RpcFrame * nat) (e : REv) : (list RpcFrame * nat) * list RecvM :=
  let '(arrived, pos) := st in
  match e with
  | RArrive f => ((arrived ++ [f], pos), [])
  | RRecv =>
    if pos + cap <? length arrived then ((arrived, length arrived - cap), [MLagged (length arrived - cap - pos)])
    else match nth_error arrived pos with
         | Some f => ((arrived, S pos), [MGot f])
         | None => (st, [MWaiting])
         end
  end.
Fixpoint r_run (cap : nat) (st : list RpcFrame * nat) (es : list REv) : list RecvM :=
  match es with
  | [] => []
  | e :: tl => let '(st', o) := r_step cap st e in o ++ r_run cap st' tl
  end.

Fixpoint m_view (k : Key8) (id : nat) (ops : list SubOp) : list REv :=
  match ops with
  | [] => []
  | Deliver f :: tl => if of_topic k f then RArrive f :: m_view k id tl else m_view k id tl
  | ReceiveM i :: tl => if i =? id then RRecv :: m_view k id tl else m_view k id tl
  | _ :: tl => m_view k id tl
  end.
Fixpoint m_results (id : nat) (ops : list SubOp) (outs : list SubOut) : list RecvM :=
  match ops, outs with
  | ReceiveM i :: tl, OM r :: os => if i =? id then r :: m_results id tl os else m_results id tl os
  | _ :: tl, _ :: os => m_results id tl os
  | _, _ => []
  end.

Definition m_undisturbed (id : nat) (ops : list SubOp) : Prop :=
  ~ In StopWorker ops /\ ~ In (DropM id) ops.

(** Messages of topic [k] that arrive in [ops]. *)
Definition arrivals (k : Key8) (ops : list SubOp) : list RpcFrame :=
  flat_map (fun o => match o with Deliver f => if of_topic k f then [f] else [] | _ => [] end) ops.
Definition got_frames (rs : list RecvM) : list RpcFrame :=
  flat_map (fun r => match r with MGot f => [f] | _ => [] end) rs.
Definition missed (rs : list RecvM) : nat :=
  list_sum (map (fun r => match r with MLagged n => n | _ => 0 end) rs).
