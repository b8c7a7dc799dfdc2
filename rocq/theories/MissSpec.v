(** Vocabulary for statements about subscribers that miss nothing. *)
From Coq Require Import NArith List Bool Arith.
From Verif Require Import KeyModel HeaderModel KeySpec MinKeyModel SubModel SubSpec ClientModel ClientSpec FlowSpec.
From Verif Require Import DispatchModel DispatchSpec SystemModel SystemSpec LiveSpec.
Import ListNotations.

(** The messages of topic [k] that are on the way to the client: the frames among [down]
    that parse and are of that topic. *)
Definition on_the_way (k : Key8) (down : list (list N)) : list RpcFrame :=
  filter (of_topic k) (flat_map frame_of down).

(** What was transmitted for topic [k], as frames. *)
Definition messages {Val SCtx} (enc : Payload Val -> list N) (tr : Trace Val SCtx) (k : Key8) : list RpcFrame :=
  flat_map (fun e => match e with
    | EvSend _ h p _ => if varkey_eqb (VKey8 k) (hdr_key h) then [MkFrame h (enc p)] else []
    | _ => []
    end) tr.

(** Nothing was lost or cut short on the way to the client. *)
Definition keeps_down (ls : list SysLabel) : Prop :=
  forall l, In l ls -> match l with SLoseDown _ | SCutDown _ _ => False | _ => True end.

(** No other topic that the client subscribes to looks like [k] at the length of the keys
    that the server transmits. *)
Definition only_topic (kk : VarKeyKind) (k : Key8) (cl : list Label) : Prop :=
  forall k', In k' (topics_subscribed cl) -> compact (klen kk) (k8_bytes k') = compact (klen kk) (k8_bytes k) -> k' = k.

(** The task that receives for the client has not ended: neither did receiving fail nor
    was it told to stop. *)
Definition still_receiving (cl : list Label) : Prop := ~ In LInFail cl /\ ~ In LInEnd cl.

Section Client.
  (** What the client does after the subscription was handed out, and what comes of it. *)
  Variable cl : list Label.
  Variable es : list (list Ev).

  (** The user keeps subscription [id] to topic [k] and does not replace it. *)
  Definition kept (k : Key8) (id : nat) : Prop :=
    ~ In (LSub (DropX id)) cl /\ forall d, ~ In (LSub (SubscribeLegacy k d)) cl.
  Definition kept_multi (id : nat) : Prop := ~ In (LSub (DropM id)) cl.

  (** At any time the user has taken all but at most [depth] of the messages that came. *)
  Definition keeps_up (k : Key8) (id depth : nat) : Prop :=
    forall n, length (filter (of_topic k) (arrived (firstn n cl))) <= length (given (firstn n cl) (firstn n es) id) + depth.
  Definition keeps_up_multi (k : Key8) (id depth : nat) : Prop :=
    forall n, length (filter (of_topic k) (arrived (firstn n cl))) <= length (given_multi (firstn n cl) (firstn n es) id) + depth.

  (** A client with a subscription timeout never gives up waiting for room. *)
  Definition patient (cfg : Config) : Prop := cfg_no_wait cfg = false /\ ~ In (LUnblock TimeUp) cl.

  (** The user was never told of missed messages. *)
  Definition never_lagged (id : nat) : Prop :=
    forall n, ~ In (LSub (ReceiveM id), [EvSub (OM (MLagged n))]) (combine cl es).

  (** The user was never told that the subscription is closed. *)
  Definition never_closed (id : nat) : Prop := ~ In (LSub (ReceiveM id), [EvSub (OM MClosed)]) (combine cl es).

  (** The last thing that happened: the user asked for a message and there was none. *)
  Definition found_empty (id : nat) : Prop :=
    exists cl0 es0, cl = cl0 ++ [LSub (ReceiveX id)] /\ es = es0 ++ [[EvSub (OX XWaiting)]].
  Definition found_empty_multi (id : nat) : Prop :=
    exists cl0 es0, cl = cl0 ++ [LSub (ReceiveM id)] /\ es = es0 ++ [[EvSub (OM MWaiting)]].
End Client.
