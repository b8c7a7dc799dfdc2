(** Vocabulary for statements about the whole system. *)
From Coq Require Import NArith List Bool Arith.
From Verif Require Import KeyModel HeaderModel KeySpec HeaderSpec MinKeyModel MinKeySpec SchemaModel MacroModel PostcardModel
  DispatchModel DispatchSpec SubModel ClientModel ClientSpec SystemModel.
Import ListNotations.

(** User code may at some point, depending on the results of its transmissions, send
    this. *)
Inductive may_send {Val R} : HProg Val R -> Key8 -> VarSeq -> Payload Val -> Prop :=
| ms_now key seq p k : may_send (HSend key seq p k) key seq p
| ms_later key seq p k r key' seq' p' : may_send (k r) key' seq' p' -> may_send (HSend key seq p k) key' seq' p'.

(** No frame was cut short. *)
Definition uncut (ls : list SysLabel) : Prop := forall i n, ~ In (SCutDown i n) ls.
(** The link to the server, respectively to the client, delivered in order. *)
Definition up_in_order (ls : list SysLabel) : Prop := forall i, In (SServe i) ls -> i = 0.
Definition down_in_order (ls : list SysLabel) : Prop := forall i, In (SRecv i) ls -> i = 0.

Section Spec.
  Context {Val Ctx SCtx : Type}.
  Variable std : StdKeys.
  Variable eps : EndpointMap.
  Variable tin tout : TopicMap.
  Variable ea : list (EpArm Val Ctx).
  Variable ta : list (TpArm Val Ctx).
  Variable task : nat -> SCtx -> VarHeader -> Val -> HProg Val unit.
  Variable bg : list (HProg Val unit).

  (** The endpoints a client of this device can call: request and response key. *)
  Definition is_endpoint (req resp : Key8) : Prop := exists path, In (path, req, resp) (em_endpoints eps).
  Definition is_topic_in (key : Key8) : Prop := In key (map snd (tm_topics tin)).
  Definition is_topic_out (key : Key8) : Prop := In key (map snd (tm_topics tout)).

  (** What the Rust types and the standard tables guarantee: the standard endpoints
      and the schema topic are in the tables; each handler belongs to a declared
      endpoint. *)
  Definition device_ok : Prop :=
    is_endpoint (ping_req std) (ping_resp std) /\ is_endpoint (schemas_req std) (schemas_resp std) /\
    is_topic_out (schema_topic std) /\
    (forall a, In a ea -> is_endpoint (ea_req _ _ a) (ea_resp _ _ a)).

  (** User code on the server plays by the rules: handlers and background
      tasks publish on declared topics; a spawned handler may also answer its own request, under its own
      response key (or the error key) and the sequence number of its request. *)
  Definition handlers_ok : Prop :=
    (forall a ctx h v key seq p, In a ea -> may_send (ea_run _ _ a ctx h v) key seq p -> is_topic_out key /\ seq_ok seq) /\
    (forall a ctx h v key seq p, In a ta -> may_send (ta_run _ _ a ctx h v) key seq p -> is_topic_out key /\ seq_ok seq) /\
    (forall a sc h v key seq p, In a ea -> ea_flavor _ _ a = Spawn -> may_send (task (ea_name _ _ a) sc h v) key seq p ->
       (is_topic_out key /\ seq_ok seq) \/ ((key = ea_resp _ _ a \/ key = error_key std) /\ seq = hdr_seq h)) /\
    (forall a sc h v key seq p, In a ta -> ta_flavor _ _ a = Spawn -> may_send (task (ta_name _ _ a) sc h v) key seq p ->
       is_topic_out key /\ seq_ok seq) /\
    (forall p key seq pl, In p bg -> may_send p key seq pl -> is_topic_out key /\ seq_ok seq).

  (** The client is used through its typed interface: requests to declared endpoints,
      publications on declared topics. *)
  Definition label_ok (l : Label) : Prop :=
    match l with
    | LRequest req resp _ => is_endpoint req resp
    | LRequestRaw _ _ => False
    | LPublish f => exists key, is_topic_in key /\ hdr_key (f_hdr f) = VKey8 key /\ seq_ok (hdr_seq (f_hdr f))
    | _ => True
    end.

  (** The totals [t] announce what the device map [m] holds. *)
  Definition announces (m : DeviceMap) (t : SchemaTotals) : Prop :=
    (types_sent t = N.of_nat (length (dm_types m)) mod 2 ^ 32 /\ endpoints_sent t = N.of_nat (length (dm_endpoints m)) mod 2 ^ 32 /\
     topics_in_sent t = N.of_nat (length (dm_topics_in m)) mod 2 ^ 32 /\ topics_out_sent t = N.of_nat (length (dm_topics_out m)) mod 2 ^ 32 /\
     errors t < 2 ^ 32)%N.
  (** The errors the dispatcher itself reports. *)
  Definition dispatch_error (e : WireError) : Prop :=
    match e with DeserFailed | SerFailed | UnknownKey | FailedToSpawn | KeyTooSmall => True | FrameTooLong _ _ | FrameTooShort _ => False end.

  (** The payload [p] is the answer to a request for endpoint [req] with body [body]
      and sequence number [seq], according to what the server did ([tr]). *)
  Variable net : Trace Val SCtx -> VarHeader -> Payload Val -> TxRes.
  Variable kkind : VarKeyKind.
  Variable d : Dispatcher Val Ctx.
  Inductive answer_of (tr : Trace Val SCtx) (req : Key8) (seq : N) (body : list N) : Payload Val -> Prop :=
  | ans_ping n : req = ping_req std -> from_bytes_u32 body = Some n -> answer_of tr req seq body (PPing n)
  | ans_schemas t : req = schemas_req std -> announces (d_map _ _ d) t -> answer_of tr req seq body (PSchemaTotals t)
      (** computed by the endpoint's own handler, run on this very request *)
  | ans_handler a ctx hdr v t0 user t1 ctx' reply :
      In a ea -> ea_req _ _ a = req -> ea_flavor _ _ a <> Spawn ->
      ea_deser _ _ a body = Some v -> seq_value (hdr_seq hdr) = seq ->
      tr = t0 ++ EvRun (ea_name _ _ a) hdr v :: user ++ t1 ->
      run_prog Val SCtx net kkind (ea_run _ _ a ctx hdr v) (t0 ++ [EvRun (ea_name _ _ a) hdr v])
        = ((ctx', reply), t0 ++ EvRun (ea_name _ _ a) hdr v :: user) ->
      answer_of tr req seq body (PVal reply)
      (** sent by the endpoint's own task, spawned for this very request *)
  | ans_task a sc hdr v p :
      In a ea -> ea_req _ _ a = req -> ea_flavor _ _ a = Spawn ->
      ea_deser _ _ a body = Some v -> seq_value (hdr_seq hdr) = seq ->
      In (EvSpawn (ea_name _ _ a) sc hdr v true) tr ->
      may_send (task (ea_name _ _ a) sc hdr v) (ea_resp _ _ a) (hdr_seq hdr) p ->
      answer_of tr req seq body p.

  (** Invocations of handlers for frames with the key [req] (at the length received)
      and the sequence number [seq]. *)
  Definition runs_for (req : Key8) (seq : N) (tr : Trace Val SCtx) : list (nat * VarHeader * Val) :=
    filter (fun i => (varkey_eqb (VKey8 req) (hdr_key (snd (fst i))) && (seq_value (hdr_seq (snd (fst i))) =? seq)%N)%bool)
           (invocations tr).

  (** [p] is the error with which the server refused the request for endpoint [req]
      with body [body] and sequence number [seq]. *)
  Variable can_spawn : Trace Val SCtx -> nat -> bool.
  Variable spawn_ctxt : Ctx -> Ctx * SCtx.
  Inductive refused (tr : Trace Val SCtx) (req : Key8) (seq : N) (body : list N) : Payload Val -> Prop :=
      (** sent while dispatching this very request *)
  | ref_dispatch t0 new t2 ctx hdr ctx' res er r :
      varkey_eqb (VKey8 req) (hdr_key hdr) = true -> seq_value (hdr_seq hdr) = seq ->
      handle Val Ctx SCtx std net can_spawn kkind spawn_ctxt d ctx hdr body t0 = (ctx', res, t0 ++ new) ->
      tr = t0 ++ new ++ t2 ->
      In (EvSend ByDispatcher (out_header kkind (error_key std) (hdr_seq hdr)) (PError er) r) new ->
      dispatch_error er ->
      refused tr req seq body (PError er)
      (** sent by the endpoint's own task, spawned for this very request *)
  | ref_task a sc hdr v p :
      In a ea -> ea_req _ _ a = req -> ea_flavor _ _ a = Spawn ->
      ea_deser _ _ a body = Some v -> seq_value (hdr_seq hdr) = seq ->
      In (EvSpawn (ea_name _ _ a) sc hdr v true) tr ->
      may_send (task (ea_name _ _ a) sc hdr v) (error_key std) (hdr_seq hdr) p ->
      refused tr req seq body p.
End Spec.
