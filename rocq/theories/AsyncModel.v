(** The server, await by await.

    In SystemModel.v the server dispatches a frame in one step.  In the program,
    [handle] (dispatch_macro.rs:138-212) and the handlers are asynchronous: they wait in
    every transmission, and meanwhile spawned tasks send, too.  Here the dispatcher is
    written as a program that stops at each transmission, and one step of the server goes
    from one transmission to the next.

    The definitions mirror those of DispatchModel.v one by one (the same source lines);
    that they do the same when nothing comes in between is theorem [C73_dispatcher] of
    AsyncThm.v. *)
From Coq Require Import NArith List Bool Arith.
From Verif Require Import KeyModel HeaderModel MinKeyModel SchemaModel MacroModel PostcardModel DispatchModel SubModel ClientModel SystemModel.
Import ListNotations.

Section Async.
  Variable Val Ctx SCtx : Type.
  Variable std : StdKeys.
  Variable net : Trace Val SCtx -> VarHeader -> Payload Val -> TxRes.
  Variable can_spawn : Trace Val SCtx -> nat -> bool.
  Variable kkind : VarKeyKind.
  Variable spawn_ctxt : Ctx -> Ctx * SCtx.
  Variable d : Dispatcher Val Ctx.
  Variable enc : Payload Val -> list N.
  Variable task : nat -> SCtx -> VarHeader -> Val -> HProg Val unit.
  Variable cfg : Config.

  (** Code of the server with result [R]: it calls handlers, spawns tasks and waits for
      transmissions. *)
  Inductive SProg (R : Type) :=
  | SpRet (r : R)
  | SpRun (name : nat) (h : VarHeader) (v : Val) (k : SProg R)
  | SpSpawn (name : nat) (sc : SCtx) (h : VarHeader) (v : Val) (k : bool -> SProg R)
  | SpSend (w : Who) (h : VarHeader) (p : Payload Val) (k : TxRes -> SProg R).

  (** *** The dispatcher *)

  (** server/mod.rs:194-233 *)
  Definition sp_keyed {R} (w : Who) (seq : VarSeq) (key : Key8) (p : Payload Val) (k : TxRes -> SProg R) : SProg R :=
    SpSend R w (MkHeader (shrink_to (VKey8 key) kkind) seq) p k.
  (** server/mod.rs:248-255 *)
  Definition sp_error {R} (seq : VarSeq) (e : WireError) (k : TxRes -> SProg R) : SProg R :=
    sp_keyed ByDispatcher seq (error_key std) (PError e) k.
  (** A handler's own code. *)
  Fixpoint sp_user {A R} (p : HProg Val A) (k : A -> SProg R) : SProg R :=
    match p with
    | HRet a => k a
    | HSend key seq pl k' => sp_keyed ByHandler seq key pl (fun r => sp_user (k' r) k)
    end.
  (** server/mod.rs:273-339 *)
  Fixpoint sp_schema_loop {R} (items : list SchemaData) (msg_ctr err_ctr : N) (k : N -> N -> SProg R) : SProg R :=
    match items with
    | [] => k msg_ctr err_ctr
    | x :: tl =>
      sp_keyed ByDispatcher (Seq2 msg_ctr) (schema_topic std) (PSchemaData x) (fun res =>
        sp_schema_loop tl ((msg_ctr + 1) mod 65536)%N (if is_err res then ((err_ctr + 1) mod 4294967296)%N else err_ctr) k)
    end.
  (** server/mod.rs:258-355 *)
  Definition sp_schemas {R} (seq : VarSeq) (m : DeviceMap) (k : TxRes -> SProg R) : SProg R :=
    sp_schema_loop (map SDType (dm_types m)) 0%N 0%N (fun c1 e1 =>
    sp_schema_loop (map (fun r : EpRow => SDEndpoint (fst (fst r)) (ep_req r) (ep_resp r)) (dm_endpoints m)) c1 e1 (fun c2 e2 =>
    sp_schema_loop (map (fun r : TpRow => SDTopic (fst r) (snd r) ToClient) (dm_topics_out m)) c2 e2 (fun c3 e3 =>
    sp_schema_loop (map (fun r : TpRow => SDTopic (fst r) (snd r) ToServer) (dm_topics_in m)) c3 e3 (fun c4 e4 =>
    sp_keyed ByDispatcher seq (schemas_resp std)
      (PSchemaTotals (MkTotals (u32_len (dm_types m)) (u32_len (dm_endpoints m))
                               (u32_len (dm_topics_in m)) (u32_len (dm_topics_out m)) e4)) k)))).

  Notation Code := (SProg (Ctx * TxRes)).
  Notation done ctx res := (SpRet (Ctx * TxRes) (ctx, res)).

  (** dispatch_macro.rs:59-93 *)
  Definition sp_ep_arm (a : EpArm Val Ctx) (ctx : Ctx) (hdr : VarHeader) (req : Val) : Code :=
    match ea_flavor _ _ a with
    | DispatchModel.Blocking | Async =>
      SpRun _ (ea_name _ _ a) hdr req (sp_user (ea_run _ _ a ctx hdr req) (fun x =>
        sp_keyed ByDispatcher (hdr_seq hdr) (ea_resp _ _ a) (PVal (snd x)) (fun res =>
          if is_err res then sp_error (hdr_seq hdr) SerFailed (fun res' => done (fst x) res')
          else done (fst x) TxOk)))
    | Spawn =>
      SpSpawn _ (ea_name _ _ a) (snd (spawn_ctxt ctx)) hdr req (fun ok =>
        if ok then done (fst (spawn_ctxt ctx)) TxOk
        else sp_error (hdr_seq hdr) FailedToSpawn (fun res => done (fst (spawn_ctxt ctx)) res))
    end.
  (** dispatch_macro.rs:100-116, 203 *)
  Definition sp_tp_arm (a : TpArm Val Ctx) (ctx : Ctx) (hdr : VarHeader) (msg : Val) : Code :=
    match ta_flavor _ _ a with
    | DispatchModel.Blocking | Async => SpRun _ (ta_name _ _ a) hdr msg (sp_user (ta_run _ _ a ctx hdr msg) (fun ctx' => done ctx' TxOk))
    | Spawn => SpSpawn _ (ta_name _ _ a) (snd (spawn_ctxt ctx)) hdr msg (fun _ => done (fst (spawn_ctxt ctx)) TxOk)
    end.
  (** dispatch_macro.rs:185-210 *)
  Fixpoint sp_match_tps (kind : VarKeyKind) (keyb : VarKey) (tps : list (TpArm Val Ctx)) (ctx : Ctx) (hdr : VarHeader) (body : list N) : Code :=
    match tps with
    | [] => sp_error (hdr_seq hdr) UnknownKey (fun res => done ctx res)
    | a :: tl =>
      if pat_eqb keyb (const_key kind (ta_key _ _ a)) then
        match ta_deser _ _ a body with None => done ctx TxOk | Some msg => sp_tp_arm a ctx hdr msg end
      else sp_match_tps kind keyb tl ctx hdr body
    end.
  (** dispatch_macro.rs:164-184 *)
  Fixpoint sp_match_eps (kind : VarKeyKind) (keyb : VarKey) (eps : list (EpArm Val Ctx)) (tps : list (TpArm Val Ctx))
      (ctx : Ctx) (hdr : VarHeader) (body : list N) : Code :=
    match eps with
    | [] => sp_match_tps kind keyb tps ctx hdr body
    | a :: tl =>
      if pat_eqb keyb (const_key kind (ea_req _ _ a)) then
        match ea_deser _ _ a body with
        | None => sp_error (hdr_seq hdr) DeserFailed (fun res => done ctx res)
        | Some req => sp_ep_arm a ctx hdr req
        end
      else sp_match_eps kind keyb tl tps ctx hdr body
    end.
  (** dispatch_macro.rs:138-212 *)
  Definition sp_handle (ctx : Ctx) (hdr : VarHeader) (body : list N) : Code :=
    match keyb_of (d_kind _ _ d) (hdr_key hdr) with
    | None => sp_error (hdr_seq hdr) KeyTooSmall (fun res => done ctx res)
    | Some keyb =>
      if pat_eqb keyb (const_key (d_kind _ _ d) (ping_req std)) then
        match from_bytes_u32 body with
        | None => sp_error (hdr_seq hdr) DeserFailed (fun res => done ctx res)
        | Some n => sp_keyed ByDispatcher (hdr_seq hdr) (ping_resp std) (PPing n) (fun res => done ctx res)
        end
      else if pat_eqb keyb (const_key (d_kind _ _ d) (schemas_req std)) then
        sp_schemas (hdr_seq hdr) (d_map _ _ d) (fun res => done ctx res)
      else sp_match_eps (d_kind _ _ d) keyb (d_eps _ _ d) (d_tps _ _ d) ctx hdr body
    end.

  (** All of it at once, from the history [tr]. *)
  Fixpoint sp_exec {R} (p : SProg R) (tr : Trace Val SCtx) : R * Trace Val SCtx :=
    match p with
    | SpRet _ r => (r, tr)
    | SpRun _ n h v k => sp_exec k (tr ++ [EvRun n h v])
    | SpSpawn _ n sc h v k => let ok := can_spawn tr n in sp_exec (k ok) (tr ++ [EvSpawn n sc h v ok])
    | SpSend _ w h pl k => let r := net tr h pl in sp_exec (k r) (tr ++ [EvSend w h pl r])
    end.

  (** What can be done without waiting. *)
  Fixpoint settle {R} (p : SProg R) (tr : Trace Val SCtx) : SProg R * Trace Val SCtx :=
    match p with
    | SpRun _ n h v k => settle k (tr ++ [EvRun n h v])
    | SpSpawn _ n sc h v k => let ok := can_spawn tr n in settle (k ok) (tr ++ [EvSpawn n sc h v ok])
    | p => (p, tr)
    end.

  (** *** The system *)

  (** The state of SystemModel.v, and what remains to be done of the frame that the server
      is dispatching. *)
  Record ASys := MkASys { a_sys : Sys Val Ctx SCtx; a_cur : option Code }.
  Definition asys_new (bg : list (HProg Val unit)) (ctx : Ctx) : ASys := MkASys (sys_new Val Ctx SCtx bg ctx) None.

  Inductive ALabel :=
  | ASystem (l : SysLabel)   (* as in SystemModel.v; [SServe] begins to dispatch a frame *)
  | AResume.                 (* the server transmits a frame and carries on *)

  (** The server carries on with [p], up to its next transmission. *)
  Definition carry_on (s : Sys Val Ctx SCtx) (p : Code) : ASys :=
    let (p', tr) := settle p (y_trace _ _ _ s) in
    let tasks := y_tasks _ _ _ s ++ tasks_of Val SCtx task (skipn (length (y_trace _ _ _ s)) tr) in
    match p' with
    | SpRet _ (ctx, res) =>
      MkASys (MkSys _ _ _ (y_client _ _ _ s) (y_up _ _ _ s) (y_down _ _ _ s) ctx tr tasks
                (match res with TxErr TxConnectionClosed | TxErr TxTimeout => false | _ => true end)) None
    | _ => MkASys (MkSys _ _ _ (y_client _ _ _ s) (y_up _ _ _ s) (y_down _ _ _ s) (y_ctx _ _ _ s) tr tasks (y_serving _ _ _ s)) (Some p')
    end.

  Notation sys_step := (sys_step Val Ctx SCtx std net can_spawn kkind spawn_ctxt d enc task cfg).

  Definition a_step (l : ALabel) (a : ASys) : option ASys :=
    let s := a_sys a in
    match l with
    (** server/mod.rs:420-454 *)
    | ASystem (SServe i) =>
      match a_cur a with
      | Some _ => None
      | None =>
        if y_serving _ _ _ s then
          match nth_error (y_up _ _ _ s) i with
          | Some b =>
            let s' := MkSys _ _ _ (y_client _ _ _ s) (remove_nth i (y_up _ _ _ s)) (y_down _ _ _ s) (y_ctx _ _ _ s) (y_trace _ _ _ s) (y_tasks _ _ _ s) true in
            match take_from_slice b with
            | Panicked => None
            | Done None => Some (MkASys s' None)
            | Done (Some (hdr, body)) => Some (carry_on s' (sp_handle (y_ctx _ _ _ s) hdr body))
            end
          | None => None
          end
        else None
      end
    | ASystem l =>
      match sys_step l s with
      | Some s' => Some (MkASys s' (a_cur a))
      | None => None
      end
    | AResume =>
      match a_cur a with
      | Some (SpSend _ w h p k) =>
        let r := net (y_trace _ _ _ s) h p in
        Some (carry_on (MkSys _ _ _ (y_client _ _ _ s) (y_up _ _ _ s) (y_down _ _ _ s ++ [rpc_to_bytes (MkFrame h (enc p))]) (y_ctx _ _ _ s)
                          (y_trace _ _ _ s ++ [EvSend w h p r]) (y_tasks _ _ _ s) (y_serving _ _ _ s)) (k r))
      | _ => None
      end
    end.

  (** The client step that a step contains, if any. *)
  Definition a_client_label (l : ALabel) (a : ASys) : option Label :=
    match l with ASystem l => client_label Val Ctx SCtx l (a_sys a) | AResume => None end.

  (** A history, with what the client did and showed, step by step. *)
  Fixpoint a_run (ls : list ALabel) (a : ASys) : option (ASys * list Label * list (list Ev)) :=
    match ls with
    | [] => Some (a, [], [])
    | l :: tl =>
      match a_step l a with
      | None => None
      | Some a1 =>
        match a_run tl a1 with
        | None => None
        | Some (a2, cl, es) =>
          match a_client_label l a with
          | Some x => match step cfg x (y_client _ _ _ (a_sys a)) with Some (_, e) => Some (a2, x :: cl, e :: es) | None => None end
          | None => Some (a2, cl, es)
          end
        end
      end
    end.
End Async.
Arguments SpRet {Val SCtx R}. Arguments SpRun {Val SCtx R}. Arguments SpSpawn {Val SCtx R}. Arguments SpSend {Val SCtx R}.
