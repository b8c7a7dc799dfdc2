(** Model of the server's sender and dispatcher.
    Source: /repo/source/postcard-rpc/src/server/mod.rs:76-355,
    server/dispatch_macro.rs:51-470, standard_icd.rs.

    The transport is an oracle that decides the result of every transmission
    from the whole history, so theorems hold for every pattern of failures.
    User code is arbitrary: a handler is a terminating program that may use the
    sender any number of times.  Values of user types are an arbitrary type
    [Val]; deserialization of a request is an arbitrary function of the body. *)
From Coq Require Import NArith List Bool Arith.
From Verif Require Import KeyModel HeaderModel MinKeyModel SchemaModel MacroModel PostcardModel.
Import ListNotations.

(** server/mod.rs:77-86 [WireTxErrorKind] *)
Inductive TxErrKind := TxConnectionClosed | TxOther | TxTimeout.
Inductive TxRes := TxOk | TxErr (k : TxErrKind).
Definition is_err (r : TxRes) : bool := match r with TxOk => false | TxErr _ => true end.

(** standard_icd.rs:40-58 [WireError] *)
Inductive WireError :=
  | FrameTooLong (len max : N) | FrameTooShort (len : N)
  | DeserFailed | SerFailed | UnknownKey | FailedToSpawn | KeyTooSmall.

(** standard_icd.rs:63-110 [SchemaData]/[OwnedSchemaData] *)
Inductive SchemaData :=
  | SDType (t : NamedType)
  | SDEndpoint (path : str) (request_key response_key : Key8)
  | SDTopic (path : str) (key : Key8) (direction : TopicDirection).

(** standard_icd.rs:114-125 [SchemaTotals] *)
Record SchemaTotals := MkTotals {
  types_sent : N; endpoints_sent : N; topics_in_sent : N; topics_out_sent : N; errors : N }.

(** Keys of the standard endpoints and topics and of the error path
    (standard_icd.rs:16, 127-154): hashes, hence arbitrary here. *)
Record StdKeys := MkStd {
  ping_req : Key8; ping_resp : Key8;
  schemas_req : Key8; schemas_resp : Key8;
  schema_topic : Key8; error_key : Key8; logging_key : Key8 }.

(** dispatch_macro.rs:59-116: handler flavors. *)
Inductive Flavor := Blocking | Async | Spawn.

Section Dispatch.
  Variable Val Ctx SCtx : Type.
  Variable std : StdKeys.

  (** What can be transmitted. *)
  Inductive Payload :=
    | PVal (v : Val) | PPing (n : N) | PError (e : WireError)
    | PSchemaData (d : SchemaData) | PSchemaTotals (t : SchemaTotals).

  (** Who caused a transmission: the dispatcher or user code. *)
  Inductive Who := ByDispatcher | ByHandler.

  Inductive Event :=
    | EvSend (w : Who) (h : VarHeader) (p : Payload) (r : TxRes)
    | EvRun (handler : nat) (h : VarHeader) (req : Val)
    | EvSpawn (handler : nat) (sc : SCtx) (h : VarHeader) (req : Val) (ok : bool).
  Definition Trace : Type := list Event.

  (** User code with result [R]: it can send under any full key and sequence
      number (server/mod.rs:194-255) and see the result. *)
  Inductive HProg (R : Type) :=
    | HRet (r : R)
    | HSend (key : Key8) (seq : VarSeq) (p : Payload) (k : TxRes -> HProg R).

  (** Result of the transmission of a frame, given everything that happened. *)
  Variable net : Trace -> VarHeader -> Payload -> TxRes.
  (** Whether a task can be spawned now. *)
  Variable can_spawn : Trace -> nat -> bool.

  (** server/mod.rs:176-179: the sender's key kind. *)
  Variable kkind : VarKeyKind.

  (** [self.tx.send(wh, resp)] *)
  Definition tx_send (w : Who) (h : VarHeader) (p : Payload) (tr : Trace) : TxRes * Trace :=
    let r := net tr h p in (r, tr ++ [EvSend w h p r]).

  (** server/mod.rs:194-233 [reply], [reply_keyed], [publish]: full key, shrunk
      to the sender's kind. *)
  Definition send_keyed (w : Who) (seq : VarSeq) (key : Key8) (p : Payload) (tr : Trace) : TxRes * Trace :=
    tx_send w (MkHeader (shrink_to (VKey8 key) kkind) seq) p tr.

  (** server/mod.rs:248-255 [error] *)
  Definition send_error (seq : VarSeq) (e : WireError) (tr : Trace) : TxRes * Trace :=
    send_keyed ByDispatcher seq (error_key std) (PError e) tr.

  Fixpoint run_prog {R} (p : HProg R) (tr : Trace) : R * Trace :=
    match p with
    | HRet _ r => (r, tr)
    | HSend _ key seq pl k =>
      let (r, tr') := send_keyed ByHandler seq key pl tr in run_prog (k r) tr'
    end.

  (** *** Schema streaming: server/mod.rs:258-355 [send_all_schemas] *)

  (** One of the four [for] loops (273-339).  [msg_ctr] is a u16, [err_ctr] a
      u32; additions wrap (release build; with overflow checks enabled a device
      with 65536 or more items would panic here). *)
  Fixpoint schema_loop (items : list SchemaData) (msg_ctr err_ctr : N) (tr : Trace) : N * N * Trace :=
    match items with
    | [] => (msg_ctr, err_ctr, tr)
    | d :: tl =>
      let (res, tr') := send_keyed ByDispatcher (Seq2 msg_ctr) (schema_topic std) (PSchemaData d) tr in
      let err' := if is_err res then ((err_ctr + 1) mod 4294967296)%N else err_ctr in
      schema_loop tl ((msg_ctr + 1) mod 65536)%N err' tr'
    end.

  Definition u32_len {A} (l : list A) : N := (N.of_nat (length l) mod 4294967296)%N.

  Definition send_all_schemas (seq : VarSeq) (m : DeviceMap) (tr : Trace) : TxRes * Trace :=
    let '(c1, e1, tr1) := schema_loop (map SDType (dm_types m)) 0%N 0%N tr in
    let '(c2, e2, tr2) :=
      schema_loop (map (fun r : EpRow => SDEndpoint (fst (fst r)) (ep_req r) (ep_resp r)) (dm_endpoints m)) c1 e1 tr1 in
    let '(c3, e3, tr3) :=
      schema_loop (map (fun r : TpRow => SDTopic (fst r) (snd r) ToClient) (dm_topics_out m)) c2 e2 tr2 in
    let '(c4, e4, tr4) :=
      schema_loop (map (fun r : TpRow => SDTopic (fst r) (snd r) ToServer) (dm_topics_in m)) c3 e3 tr3 in
    send_keyed ByDispatcher seq (schemas_resp std)
      (PSchemaTotals (MkTotals (u32_len (dm_types m)) (u32_len (dm_endpoints m))
                               (u32_len (dm_topics_in m)) (u32_len (dm_topics_out m)) e4)) tr4.

  (** *** The dispatcher *)

  (** One row of the endpoint table of [define_dispatch!]: the endpoint type (its
      keys and request deserializer), flavor and handler. *)
  Record EpArm := MkEpArm {
    ea_req : Key8; ea_resp : Key8; ea_deser : list N -> option Val;
    ea_flavor : Flavor; ea_name : nat;
    ea_run : Ctx -> VarHeader -> Val -> HProg (Ctx * Val) }.

  Record TpArm := MkTpArm {
    ta_key : Key8; ta_deser : list N -> option Val;
    ta_flavor : Flavor; ta_name : nat;
    ta_run : Ctx -> VarHeader -> Val -> HProg Ctx }.

  (** server/mod.rs:501-506 [SpawnContext::spawn_ctxt(&mut self)] *)
  Variable spawn_ctxt : Ctx -> Ctx * SCtx.

  (** dispatch_macro.rs:59-93 [@ep_arm] *)
  Definition ep_arm (a : EpArm) (ctx : Ctx) (hdr : VarHeader) (req : Val) (tr : Trace)
    : Ctx * TxRes * Trace :=
    match ea_flavor a with
    | Blocking | Async =>
      let '((ctx', reply), tr1) := run_prog (ea_run a ctx hdr req) (tr ++ [EvRun (ea_name a) hdr req]) in
      let (res, tr2) := send_keyed ByDispatcher (hdr_seq hdr) (ea_resp a) (PVal reply) tr1 in
      if is_err res
      then let (res', tr3) := send_error (hdr_seq hdr) SerFailed tr2 in (ctx', res', tr3)
      else (ctx', TxOk, tr2)
    | Spawn =>
      let (ctx', sc) := spawn_ctxt ctx in
      let ok := can_spawn tr (ea_name a) in
      let tr1 := tr ++ [EvSpawn (ea_name a) sc hdr req ok] in
      if negb ok
      then let (res, tr2) := send_error (hdr_seq hdr) FailedToSpawn tr1 in (ctx', res, tr2)
      else (ctx', TxOk, tr1)
    end.

  (** dispatch_macro.rs:100-116 [@tp_arm], followed by [Ok(())] (203) *)
  Definition tp_arm (a : TpArm) (ctx : Ctx) (hdr : VarHeader) (msg : Val) (tr : Trace)
    : Ctx * TxRes * Trace :=
    match ta_flavor a with
    | Blocking | Async =>
      let (ctx', tr1) := run_prog (ta_run a ctx hdr msg) (tr ++ [EvRun (ta_name a) hdr msg]) in
      (ctx', TxOk, tr1)
    | Spawn =>
      let (ctx', sc) := spawn_ctxt ctx in
      (ctx', TxOk, tr ++ [EvSpawn (ta_name a) sc hdr msg (can_spawn tr (ta_name a))])
    end.

  Record Dispatcher := MkDispatcher {
    d_kind : VarKeyKind; d_eps : list EpArm; d_tps : list TpArm; d_map : DeviceMap }.

  (** dispatch_macro.rs:145: [<KeyN>::try_from(&key)] *)
  Definition keyb_of (kind : VarKeyKind) (v : VarKey) : option VarKey :=
    match kind with
    | KK1 => option_map VKey1 (key1_try_from_varkey v)
    | KK2 => option_map VKey2 (key2_try_from_varkey v)
    | KK4 => option_map VKey4 (key4_try_from_varkey v)
    | KK8 => option_map VKey8 (key8_try_from_varkey v)
    end.
  (** lib.rs:381-392, 410-414: [REQ_KEYn], [TOPIC_KEYn] *)
  Definition const_key (kind : VarKeyKind) (k : Key8) : VarKey :=
    match kind with
    | KK1 => VKey1 (key1_from_key8 k)
    | KK2 => VKey2 (key2_from_key8 k)
    | KK4 => VKey4 (key4_from_key8 k)
    | KK8 => VKey8 k
    end.
  (** A constant pattern: structural equality of [KeyN]. *)
  Definition pat_eqb (a b : VarKey) : bool :=
    match a, b with
    | VKey1 x, VKey1 y => key1_eqb x y
    | VKey2 x, VKey2 y => key2_eqb x y
    | VKey4 x, VKey4 y => key4_eqb x y
    | VKey8 x, VKey8 y => key8_eqb x y
    | _, _ => false
    end.

  (** dispatch_macro.rs:185-210: topic arms, then the [_other] arm. *)
  Fixpoint match_tps (kind : VarKeyKind) (keyb : VarKey) (tps : list TpArm)
      (ctx : Ctx) (hdr : VarHeader) (body : list N) (tr : Trace) : Ctx * TxRes * Trace :=
    match tps with
    | [] => let (res, tr') := send_error (hdr_seq hdr) UnknownKey tr in (ctx, res, tr')
    | a :: tl =>
      if pat_eqb keyb (const_key kind (ta_key a)) then
        match ta_deser a body with
        | None => (ctx, TxOk, tr)
        | Some msg => tp_arm a ctx hdr msg tr
        end
      else match_tps kind keyb tl ctx hdr body tr
    end.

  (** dispatch_macro.rs:164-184: endpoint arms. *)
  Fixpoint match_eps (kind : VarKeyKind) (keyb : VarKey) (eps : list EpArm) (tps : list TpArm)
      (ctx : Ctx) (hdr : VarHeader) (body : list N) (tr : Trace) : Ctx * TxRes * Trace :=
    match eps with
    | [] => match_tps kind keyb tps ctx hdr body tr
    | a :: tl =>
      if pat_eqb keyb (const_key kind (ea_req a)) then
        match ea_deser a body with
        | None => let (res, tr') := send_error (hdr_seq hdr) DeserFailed tr in (ctx, res, tr')
        | Some req => ep_arm a ctx hdr req tr
        end
      else match_eps kind keyb tl tps ctx hdr body tr
    end.

  (** dispatch_macro.rs:138-212 [handle] *)
  Definition handle (d : Dispatcher) (ctx : Ctx) (hdr : VarHeader) (body : list N) (tr : Trace)
    : Ctx * TxRes * Trace :=
    match keyb_of (d_kind d) (hdr_key hdr) with
    | None => let (res, tr') := send_error (hdr_seq hdr) KeyTooSmall tr in (ctx, res, tr')
    | Some keyb =>
      if pat_eqb keyb (const_key (d_kind d) (ping_req std)) then
        match from_bytes_u32 body with
        | None => let (res, tr') := send_error (hdr_seq hdr) DeserFailed tr in (ctx, res, tr')
        | Some n =>
          let (res, tr') := send_keyed ByDispatcher (hdr_seq hdr) (ping_resp std) (PPing n) tr in
          (ctx, res, tr')
        end
      else if pat_eqb keyb (const_key (d_kind d) (schemas_req std)) then
        let (res, tr') := send_all_schemas (hdr_seq hdr) (d_map d) tr in (ctx, res, tr')
      else match_eps (d_kind d) keyb (d_eps d) (d_tps d) ctx hdr body tr
    end.

  (** dispatch_macro.rs:218-470: what [define_dispatch!] elaborates to;
      [Panicked] is a compile error. *)
  Definition define_dispatch (eps : EndpointMap) (tin tout : TopicMap)
      (ep_arms : list EpArm) (tp_arms : list TpArm) : outcome Dispatcher :=
    match needed_sz (em_endpoints eps) (tm_topics tin) (tm_topics tout)
            (map ea_req ep_arms) (map ea_resp ep_arms) (map ta_key tp_arms) with
    | None => Panicked
    | Some n =>
      match kind_of_size n with
      | None => Panicked
      | Some kind =>
        obind (device_map eps tin tout kind) (fun m =>
        Done (MkDispatcher kind ep_arms tp_arms m))
      end
    end.
End Dispatch.
Arguments PVal {Val}. Arguments PPing {Val}. Arguments PError {Val}.
Arguments PSchemaData {Val}. Arguments PSchemaTotals {Val}.
Arguments EvSend {Val SCtx}. Arguments EvRun {Val SCtx}. Arguments EvSpawn {Val SCtx}.
Arguments HRet {Val R}. Arguments HSend {Val R}.
