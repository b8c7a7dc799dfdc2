(** Vocabulary for statements about what flows through the system: from publisher to
    subscribers and from callers to handlers. *)
From Coq Require Import NArith List Bool Arith.
From Verif Require Import KeyModel HeaderModel MinKeyModel DispatchModel DispatchSpec SubModel ClientModel ClientSpec SystemModel SystemSpec.
Import ListNotations.

Section Client.
  (** What the user of the client did and what came of it, step by step. *)
  Variable cl : list Label.
  Variable es : list (list Ev).

  (** Exclusive, respectively broadcast, subscription [id] was handed out for the topic
      with key [k]. *)
  Definition subscribed (k : Key8) (id : nat) : Prop :=
    exists d, In (LSub (SubscribeExclusive k d), [EvSub (ORes (Subscribed id))]) (combine cl es) \/
              In (LSub (SubscribeLegacy k d), [EvSub (ORes (Subscribed id))]) (combine cl es).
  Definition subscribed_multi (k : Key8) (id : nat) : Prop :=
    exists d, In (LSub (SubscribeMulti k d), [EvSub (ORes (Subscribed id))]) (combine cl es).

  (** The messages that the user of that subscription was given, in order. *)
  Definition given (id : nat) : list RpcFrame :=
    flat_map (fun x => match x with
      | (LSub (ReceiveX i), [EvSub (OX (XGot f))]) => if i =? id then [f] else []
      | _ => []
      end) (combine cl es).
  Definition given_multi (id : nat) : list RpcFrame :=
    flat_map (fun x => match x with
      | (LSub (ReceiveM i), [EvSub (OM (MGot f))]) => if i =? id then [f] else []
      | _ => []
      end) (combine cl es).

  (** The bodies of the requests and publications made. *)
  Definition bodies_of : list (list N) := map (fun x => f_body (fst x)) (issued 0 cl) ++ map f_body (published cl).
End Client.

(** The body of the frame [f] is the serialization of [p], of which the end may be missing
    if the link cut frames short. *)
Definition body_of {Val} (enc : Payload Val -> list N) (ls : list SysLabel) (f : RpcFrame) (p : Payload Val) : Prop :=
  exists missing, enc p = f_body f ++ missing /\ (uncut ls -> missing = []).

Section Server.
  Context {Val SCtx : Type}.
  (** What the server transmitted under the key [k] (as far as the bytes of the key go
      that it transmits), in order. *)
  Definition sent_on (tr : Trace Val SCtx) (k : Key8) : list (Payload Val) :=
    flat_map (fun e => match e with
      | EvSend _ h p _ => if varkey_eqb (VKey8 k) (hdr_key h) then [p] else []
      | _ => []
      end) tr.

  (** A handler ran because of a call: the invocation [(name, hdr, v)] of a handler on a
      value is that of the endpoint, respectively topic, that was called, the value is
      what the caller's body decodes to, and the sequence number is that of the
      call. *)
  Definition run_of {Ctx} (ea : list (EpArm Val Ctx)) (ta : list (TpArm Val Ctx)) (cl : list Label)
      (i : nat * VarHeader * Val) (call : nat + nat) : Prop :=
    let '(name, hdr, v) := i in
    match call with
    | inl r => exists a body resp, In a ea /\ name = ea_name _ _ a /\ ea_deser _ _ a body = Some v /\
        nth_error (issued 0 cl) r = Some (MkFrame (MkHeader (VKey8 (ea_req _ _ a)) (hdr_seq hdr)) body, resp)
    | inr i => exists a body, In a ta /\ name = ta_name _ _ a /\ ta_deser _ _ a body = Some v /\
        nth_error (published cl) i = Some (MkFrame (MkHeader (VKey8 (ta_key _ _ a)) (hdr_seq hdr)) body)
    end.

  (** [p] was published on topic [k] by the device: by a handler that ran, a task that
      was spawned or a background task, or it is part of the schema report. *)
  Variable std : StdKeys.
  Context {Ctx : Type}.
  Variable ea : list (EpArm Val Ctx).
  Variable ta : list (TpArm Val Ctx).
  Variable task : nat -> SCtx -> VarHeader -> Val -> HProg Val unit.
  Variable bg : list (HProg Val unit).
  Variable d : Dispatcher Val Ctx.
  (** The bodies of the frames that the client sent. *)
  Variable bodies : list (list N).
  Inductive publishes (tr : Trace Val SCtx) (k : Key8) : Payload Val -> Prop :=
  | pub_endpoint a ctx hdr body v seq p : In a ea -> ea_flavor _ _ a <> Spawn -> ea_deser _ _ a body = Some v -> In body bodies ->
      In (EvRun (ea_name _ _ a) hdr v) tr -> may_send (ea_run _ _ a ctx hdr v) k seq p -> publishes tr k p
  | pub_topic a ctx hdr body v seq p : In a ta -> ta_flavor _ _ a <> Spawn -> ta_deser _ _ a body = Some v -> In body bodies ->
      In (EvRun (ta_name _ _ a) hdr v) tr -> may_send (ta_run _ _ a ctx hdr v) k seq p -> publishes tr k p
  | pub_endpoint_task a sc hdr body v seq p : In a ea -> ea_flavor _ _ a = Spawn -> ea_deser _ _ a body = Some v -> In body bodies ->
      In (EvSpawn (ea_name _ _ a) sc hdr v true) tr -> may_send (task (ea_name _ _ a) sc hdr v) k seq p -> publishes tr k p
  | pub_topic_task a sc hdr body v seq p : In a ta -> ta_flavor _ _ a = Spawn -> ta_deser _ _ a body = Some v -> In body bodies ->
      In (EvSpawn (ta_name _ _ a) sc hdr v true) tr -> may_send (task (ta_name _ _ a) sc hdr v) k seq p -> publishes tr k p
  | pub_background t seq p : In t bg -> may_send t k seq p -> publishes tr k p
  | pub_schema x : k = schema_topic std -> In x (advertised (d_map _ _ d)) -> publishes tr k (PSchemaData x).
End Server.
