(** Vocabulary for statements about typed calls. *)
From Coq Require Import NArith List Bool Arith.
From Verif Require Import KeyModel HeaderModel HeaderSpec SchemaModel MacroModel PostcardModel DispatchModel DispatchSpec
  SubModel ClientModel ClientSpec
  SystemModel SystemSpec CodecModel CodecSpec CodecStdModel.
Import ListNotations.

(** User code may, depending on the results of its transmissions, return this. *)
Inductive may_return {Val R} : HProg Val R -> R -> Prop :=
| mr_now r : may_return (HRet r) r
| mr_later key seq p k x r : may_return (k x) r -> may_return (HSend key seq p k) r.

Section Typed.
  Context {Ctx SCtx : Type}.
  Variable std : StdKeys.
  Variable ea : list (EpArm value Ctx).
  Variable task : nat -> SCtx -> VarHeader -> value -> HProg value unit.
  (** The request and response type of the endpoint with this request key. *)
  Variable rqty rsty : Key8 -> NamedType.

  (** What the Rust type checker guarantees of the device's code: arms deserialize
      their endpoint's request type and handlers, given such a value, answer with a
      value of its response type.  Errors are the standard ones. *)
  Definition typed_device : Prop :=
    rqty (ping_req std) = t_u32 /\ rsty (ping_req std) = t_u32 /\ rsty (schemas_req std) = t_totals /\
    (forall a body, In a ea -> ea_deser _ _ a body = from_bytes (rqty (ea_req _ _ a)) body) /\
    (forall a ctx h v ctx' w, In a ea -> ea_flavor _ _ a <> Spawn -> typed (rqty (ea_req _ _ a)) v ->
       may_return (ea_run _ _ a ctx h v) (ctx', w) -> typed (rsty (ea_req _ _ a)) w) /\
    (forall a sc h v seq p, In a ea -> ea_flavor _ _ a = Spawn -> typed (rqty (ea_req _ _ a)) v ->
       may_send (task (ea_name _ _ a) sc h v) (ea_resp _ _ a) seq p -> exists w, p = PVal w /\ typed (rsty (ea_req _ _ a)) w) /\
    (forall a sc h v seq p, In a ea -> ea_flavor _ _ a = Spawn -> typed (rqty (ea_req _ _ a)) v ->
       may_send (task (ea_name _ _ a) sc h v) (error_key std) seq p -> exists e, p = PError e /\ error_ok e).

  (** The request numbered [r] of the client history [cl] called endpoint [req] with the
      argument [v]. *)
  Definition called (cl : list Label) (r : nat) (req : Key8) (v : value) : Prop :=
    exists resp, nth_error (issued 0 cl) r = Some (MkFrame (MkHeader (VKey8 req) (Seq4 (N.of_nat r))) (ser v), resp) /\
                 typed (rqty req) v.
  (** What a call of endpoint [req] returns to the caller. *)
  Definition returned (req : Key8) (res : ReqResult) : HostResult value WireError :=
    host_result (from_bytes (rsty req)) from_bytes_error res.

  (** [w] is what the device computed for the call of endpoint [req] with argument [v]
      and sequence number [seq]. *)
  Variable net : Trace value SCtx -> VarHeader -> Payload value -> TxRes.
  Variable kkind : VarKeyKind.
  Variable d : Dispatcher value Ctx.
  Inductive computed (tr : Trace value SCtx) (req : Key8) (seq : N) (v : value) : value -> Prop :=
  | cp_ping : req = ping_req std -> computed tr req seq v v
  | cp_schemas t : req = schemas_req std -> announces (d_map _ _ d) t -> computed tr req seq v (totals_value t)
      (** returned by the endpoint's handler, run on this very argument *)
  | cp_handler a ctx hdr t0 user t1 ctx' w :
      In a ea -> ea_req _ _ a = req -> ea_flavor _ _ a <> Spawn -> seq_value (hdr_seq hdr) = seq ->
      tr = t0 ++ EvRun (ea_name _ _ a) hdr v :: user ++ t1 ->
      run_prog value SCtx net kkind (ea_run _ _ a ctx hdr v) (t0 ++ [EvRun (ea_name _ _ a) hdr v])
        = ((ctx', w), t0 ++ EvRun (ea_name _ _ a) hdr v :: user) ->
      computed tr req seq v w
      (** sent by the endpoint's task, spawned with this very argument *)
  | cp_task a sc hdr w :
      In a ea -> ea_req _ _ a = req -> ea_flavor _ _ a = Spawn -> seq_value (hdr_seq hdr) = seq ->
      In (EvSpawn (ea_name _ _ a) sc hdr v true) tr ->
      may_send (task (ea_name _ _ a) sc hdr v) (ea_resp _ _ a) (hdr_seq hdr) (PVal w) ->
      computed tr req seq v w.

  (** *** Topics *)
  Variable ta : list (TpArm value Ctx).
  Variable bg : list (HProg value unit).
  (** The message type of the incoming topic with this key. *)
  Variable inty : Key8 -> NamedType.
  (** What the Rust type checker guarantees of the code that publishes on topic [k] of
      message type [ty], which is not the schema topic: handlers and tasks, given values
      of their request or message type, and background tasks publish values of that type ([Topic::Message],
      server/mod.rs:190-200 [Sender::publish]). *)
  Definition typed_topic (k : Key8) (ty : NamedType) : Prop :=
    k <> schema_topic std /\
    (forall a body, In a ea -> ea_deser _ _ a body = from_bytes (rqty (ea_req _ _ a)) body) /\
    (forall a body, In a ta -> ta_deser _ _ a body = from_bytes (inty (ta_key _ _ a)) body) /\
    (forall a ctx h v seq p, In a ea -> ea_flavor _ _ a <> Spawn -> typed (rqty (ea_req _ _ a)) v ->
       may_send (ea_run _ _ a ctx h v) k seq p -> exists w, p = PVal w /\ typed ty w) /\
    (forall a ctx h v seq p, In a ta -> ta_flavor _ _ a <> Spawn -> typed (inty (ta_key _ _ a)) v ->
       may_send (ta_run _ _ a ctx h v) k seq p -> exists w, p = PVal w /\ typed ty w) /\
    (forall a sc h v seq p, In a ea -> ea_flavor _ _ a = Spawn -> typed (rqty (ea_req _ _ a)) v ->
       may_send (task (ea_name _ _ a) sc h v) k seq p -> exists w, p = PVal w /\ typed ty w) /\
    (forall a sc h v seq p, In a ta -> ta_flavor _ _ a = Spawn -> typed (inty (ta_key _ _ a)) v ->
       may_send (task (ta_name _ _ a) sc h v) k seq p -> exists w, p = PVal w /\ typed ty w) /\
    (forall t seq p, In t bg -> may_send t k seq p -> exists w, p = PVal w /\ typed ty w).
End Typed.

(** What the holder of a typed subscription to a topic of message type [ty] gets to see
    of the frames given to it: those that decode (host_client/mod.rs:810-819, 861-876). *)
Definition seen_as (ty : NamedType) (frames : list RpcFrame) : list value :=
  flat_map (fun f => match from_bytes ty (f_body f) with Some v => [v] | None => [] end) frames.
(** The values among the payloads. *)
Definition values_in (ps : list (Payload value)) : list value :=
  flat_map (fun p => match p with PVal v => [v] | _ => [] end) ps.
