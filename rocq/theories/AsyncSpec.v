(** Vocabulary for statements about the system in which the server works await by await. *)
From Coq Require Import NArith List Bool Arith.
From Verif Require Import KeyModel HeaderModel KeySpec HeaderSpec MinKeyModel SchemaModel MacroModel PostcardModel DispatchModel DispatchSpec
  SubModel ClientModel ClientSpec SystemModel SystemSpec LiveSpec CodecModel CodecSpec CodecStdModel TypedSpec AsyncModel.
Import ListNotations.

(** The steps that are not the server's carrying on. *)
Definition system_labels (ls : list ALabel) : list SysLabel := flat_map (fun l => match l with ASystem l => [l] | AResume => [] end) ls.

(** The steps that the program takes on its own. *)
Definition a_own_step (l : ALabel) : bool := match l with ASystem l => own_step l | AResume => true end.

(** The frames that were lost in a history that started in [a]; [loses] is [loses_up] or
    [loses_down] of LiveSpec.v. *)
Section Lost.
  Context {Val Ctx SCtx : Type}.
  Variable stepping : ALabel -> ASys Val Ctx SCtx -> option (ASys Val Ctx SCtx).
  Variable loses : SysLabel -> Sys Val Ctx SCtx -> list (list N).
  Fixpoint a_lost (ls : list ALabel) (a : ASys Val Ctx SCtx) : list (list N) :=
    match ls with
    | [] => []
    | l :: tl =>
      match l with ASystem l => loses l (a_sys _ _ _ a) | AResume => [] end ++
      match stepping l a with Some a' => a_lost tl a' | None => [] end
    end.
End Lost.

(** The calls of handlers and the spawning of tasks, in order. *)
Definition starts {Val SCtx} (tr : Trace Val SCtx) : Trace Val SCtx :=
  filter (fun e => match e with EvSend _ _ _ _ => false | _ => true end) tr.

Section Spec.
  Context {Val Ctx SCtx : Type}.
  Variable std : StdKeys.
  Variable ea : list (EpArm Val Ctx).
  Variable task : nat -> SCtx -> VarHeader -> Val -> HProg Val unit.
  Variable d : Dispatcher Val Ctx.

  (** The payload [p] is the answer to a request for endpoint [req] with body [body] and
      sequence number [seq], according to what the server did ([tr]): as [answer_of] of
      SystemSpec.v, except that while the handler was waiting tasks may have been
      sending. *)
  Inductive answered (tr : Trace Val SCtx) (req : Key8) (seq : N) (body : list N) : Payload Val -> Prop :=
  | an_ping n : req = ping_req std -> from_bytes_u32 body = Some n -> answered tr req seq body (PPing n)
  | an_schemas t : req = schemas_req std -> announces (d_map _ _ d) t -> answered tr req seq body (PSchemaTotals t)
      (** computed by the endpoint's own handler, run on this very request *)
  | an_handler a ctx hdr v ctx' reply :
      In a ea -> ea_req _ _ a = req -> ea_flavor _ _ a <> Spawn ->
      ea_deser _ _ a body = Some v -> seq_value (hdr_seq hdr) = seq ->
      In (EvRun (ea_name _ _ a) hdr v) tr -> may_return (ea_run _ _ a ctx hdr v) (ctx', reply) ->
      answered tr req seq body (PVal reply)
      (** sent by the endpoint's own task, spawned for this very request *)
  | an_task a sc hdr v p :
      In a ea -> ea_req _ _ a = req -> ea_flavor _ _ a = Spawn ->
      ea_deser _ _ a body = Some v -> seq_value (hdr_seq hdr) = seq ->
      In (EvSpawn (ea_name _ _ a) sc hdr v true) tr ->
      may_send (task (ea_name _ _ a) sc hdr v) (ea_resp _ _ a) (hdr_seq hdr) p ->
      answered tr req seq body p.
End Spec.

Section Typed.
  Context {Ctx SCtx : Type}.
  Variable std : StdKeys.
  Variable ea : list (EpArm value Ctx).
  Variable task : nat -> SCtx -> VarHeader -> value -> HProg value unit.
  Variable d : Dispatcher value Ctx.
  (** [w] is what the device computed for the call of endpoint [req] with argument [v] and
      sequence number [seq] (cf. [computed] of TypedSpec.v). *)
  Inductive worked_out (tr : Trace value SCtx) (req : Key8) (seq : N) (v : value) : value -> Prop :=
  | wo_ping : req = ping_req std -> worked_out tr req seq v v
  | wo_schemas t : req = schemas_req std -> announces (d_map _ _ d) t -> worked_out tr req seq v (totals_value t)
  | wo_handler a ctx hdr ctx' w :
      In a ea -> ea_req _ _ a = req -> ea_flavor _ _ a <> Spawn -> seq_value (hdr_seq hdr) = seq ->
      In (EvRun (ea_name _ _ a) hdr v) tr -> may_return (ea_run _ _ a ctx hdr v) (ctx', w) ->
      worked_out tr req seq v w
  | wo_task a sc hdr w :
      In a ea -> ea_req _ _ a = req -> ea_flavor _ _ a = Spawn -> seq_value (hdr_seq hdr) = seq ->
      In (EvSpawn (ea_name _ _ a) sc hdr v true) tr ->
      may_send (task (ea_name _ _ a) sc hdr v) (ea_resp _ _ a) (hdr_seq hdr) (PVal w) ->
      worked_out tr req seq v w.
End Typed.
