(** Independent specification vocabulary for the dispatcher. *)
From Coq Require Import NArith List Bool.
From Verif Require Import KeyModel HeaderModel KeySpec MinKeyModel MinKeySpec SchemaModel MacroModel DispatchModel.
Import ListNotations.

Section Spec.
  Context {Val Ctx SCtx : Type}.

  (** Which handlers were started, with which header and request.  A task that
      could not be spawned does not start. *)
  Fixpoint invocations (tr : list (Event Val SCtx)) : list (nat * VarHeader * Val) :=
    match tr with
    | [] => []
    | EvRun n h v :: tl => (n, h, v) :: invocations tl
    | EvSpawn n _ h v true :: tl => (n, h, v) :: invocations tl
    | EvSpawn _ _ _ _ false :: tl => invocations tl
    | EvSend _ _ _ _ :: tl => invocations tl
    end.

  (** Frames handed to the transport by the dispatcher itself, with the result. *)
  Fixpoint dispatcher_frames (tr : list (Event Val SCtx)) : list (VarHeader * Payload Val * TxRes) :=
    match tr with
    | [] => []
    | EvSend ByDispatcher h p r :: tl => (h, p, r) :: dispatcher_frames tl
    | _ :: tl => dispatcher_frames tl
    end.

  (** Every key mentioned consists of bytes. *)
  Definition config_ok (eps : EndpointMap) (tin tout : TopicMap)
      (ea : list (EpArm Val Ctx)) (ta : list (TpArm Val Ctx)) : Prop :=
    keys_ok (map ep_req (em_endpoints eps)) /\ keys_ok (map ep_resp (em_endpoints eps)) /\
    keys_ok (map snd (tm_topics tin)) /\ keys_ok (map snd (tm_topics tout)) /\
    keys_ok (map (@ea_req _ _) ea) /\ keys_ok (map (@ea_resp _ _) ea) /\ keys_ok (map (@ta_key _ _) ta).

  (** The endpoint table contains the standard endpoints (as it does unless
      [omit_std] is used). *)
  Definition has_std (std : StdKeys) (eps : EndpointMap) : Prop :=
    In (ping_req std) (map ep_req (em_endpoints eps)) /\
    In (schemas_req std) (map ep_req (em_endpoints eps)).

  (** The dispatcher [d] has these handlers, all for keys of these tables, and at the
      length of its keys, or a greater one, no two keys a device can receive look alike,
      nor two it can send.  The macro makes such dispatchers (DispatchThm.v,
      [C09_made_for]); it does so for tables with the standard endpoints and topics,
      and for tables without them if by chance they, too, can be told apart
      (OmitThm.v). *)
  Definition dispatcher_for (eps : EndpointMap) (tin tout : TopicMap)
      (ea : list (EpArm Val Ctx)) (ta : list (TpArm Val Ctx)) (d : Dispatcher Val Ctx) : Prop :=
    d_eps _ _ d = ea /\ d_tps _ _ d = ta /\
    (forall k, klen (d_kind _ _ d) <= klen k ->
      distinct_at (klen k) (map ep_req (em_endpoints eps) ++ map snd (tm_topics tin)) /\
      distinct_at (klen k) (map ep_resp (em_endpoints eps) ++ map snd (tm_topics tout))) /\
    incl (map (@ea_req _ _) ea) (map ep_req (em_endpoints eps)) /\
    incl (map (@ea_resp _ _) ea) (map ep_resp (em_endpoints eps)) /\
    incl (map (@ta_key _ _) ta) (map snd (tm_topics tin)).

  (** All request and topic keys the dispatcher matches on. *)
  Definition known_keys (std : StdKeys) (d : Dispatcher Val Ctx) : list Key8 :=
    ping_req std :: schemas_req std :: map (@ea_req _ _) (d_eps _ _ d) ++ map (@ta_key _ _) (d_tps _ _ d).

  (** The header of a frame sent under the full key [key] by a sender using
      key kind [kk]. *)
  Definition out_header (kk : VarKeyKind) (key : Key8) (seq : VarSeq) : VarHeader :=
    MkHeader (shrink_to (VKey8 key) kk) seq.

  (** The outcome of refusing a request with error [e]: nothing but one error
      frame bearing the request's sequence number, context untouched. *)
  Definition refused_with (std : StdKeys) (kk : VarKeyKind) (seq : VarSeq) (e : WireError)
      (ctx : Ctx) (tr : list (Event Val SCtx)) (out : Ctx * TxRes * list (Event Val SCtx)) : Prop :=
    exists r, out = (ctx, r, tr ++ [EvSend ByDispatcher (out_header kk (error_key std) seq) (PError e) r]).

  (** Everything a device advertises, in the documented order: types, endpoints,
      topics it sends, topics it receives. *)
  Definition advertised (m : DeviceMap) : list SchemaData :=
    map SDType (dm_types m) ++
    map (fun r : EpRow => SDEndpoint (fst (fst r)) (ep_req r) (ep_resp r)) (dm_endpoints m) ++
    map (fun r : TpRow => SDTopic (fst r) (snd r) ToClient) (dm_topics_out m) ++
    map (fun r : TpRow => SDTopic (fst r) (snd r) ToServer) (dm_topics_in m).

  (** Publication of [items], numbered from [i], with results [rs]. *)
  Fixpoint publications (std : StdKeys) (kk : VarKeyKind) (i : nat) (items : list SchemaData)
      (rs : list TxRes) : list (Event Val SCtx) :=
    match items, rs with
    | d :: tl, r :: rl =>
        EvSend ByDispatcher (out_header kk (schema_topic std) (Seq2 (N.of_nat i))) (PSchemaData d) r
        :: publications std kk (S i) tl rl
    | _, _ => []
    end.

  Definition failures (rs : list TxRes) : nat :=
    length (filter (fun r => match r with TxOk => false | TxErr _ => true end) rs).
End Spec.
