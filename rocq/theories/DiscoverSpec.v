(** Vocabulary for statements about asking a device what it offers. *)
From Coq Require Import NArith List Bool Arith.
From Verif Require Import KeyModel HeaderModel KeySpec HeaderSpec MinKeyModel SchemaModel MacroModel SubModel ClientModel ClientSpec.
From Verif Require Import DispatchModel DispatchSpec SystemModel SystemSpec CodecModel CodecSpec CodecStdModel ReportModel.
Import ListNotations.

(** Request [r] of the client is one for the schemas of the device. *)
Definition asks_schemas (std : StdKeys) (cl : list Label) (r : nat) : Prop :=
  exists f, nth_error (issued 0 cl) r = Some (f, schemas_resp std) /\ hdr_key (f_hdr f) = VKey8 (schemas_req std).
(** ... and no other request is. *)
Definition only_discovery (std : StdKeys) (cl : list Label) (r : nat) : Prop :=
  asks_schemas std cl r /\
  forall r' f resp, nth_error (issued 0 cl) r' = Some (f, resp) -> hdr_key (f_hdr f) = VKey8 (schemas_req std) -> r' = r.

(** What the collecting task of [get_schema_report] (host_client/mod.rs:256-265) hears
    from its subscription [id]: [MultiSubscription::recv] (mod.rs:861-874) returns what
    it can decode, skips what it cannot, and returns the errors of the channel. *)
Definition heard (cl : list Label) (es : list (list Ev)) (id : nat) : list RecvOutcome :=
  flat_map (fun x => match x with
    | (LSub (ReceiveM i), [EvSub (OM o)]) =>
      if i =? id then
        match o with
        | MGot f => match from_bytes_schema (f_body f) with Some s => [Got s] | None => [] end
        | MLagged _ => [Lagged]
        | MClosed => [ReportModel.IoClosed]
        | MWaiting => []
        end
      else []
    | _ => []
    end) (combine cl es).
(** It hears some of that before its timer runs out. *)
Definition listened (cl : list Label) (es : list (list Ev)) (id : nat) (outs : list RecvOutcome) : Prop :=
  exists got rest, heard cl es id = got ++ rest /\ outs = got ++ [Elapsed].

Section Spec.
  Context {Val Ctx SCtx : Type}.
  Variable std : StdKeys.
  Variable ea : list (EpArm Val Ctx).
  Variable ta : list (TpArm Val Ctx).
  Variable task : nat -> SCtx -> VarHeader -> Val -> HProg Val unit.
  Variable bg : list (HProg Val unit).
  (** User code on the server leaves the schemas to the library: it declares no handler for
      the schema endpoint and publishes nothing on the schema topic. *)
  Definition leaves_schemas : Prop :=
    (forall a, In a ea -> ea_req _ _ a <> schemas_req std) /\
    (forall a ctx h v seq p, In a ea -> ~ may_send (ea_run _ _ a ctx h v) (schema_topic std) seq p) /\
    (forall a ctx h v seq p, In a ta -> ~ may_send (ta_run _ _ a ctx h v) (schema_topic std) seq p) /\
    (forall a sc h v seq p, In a ea -> ea_flavor _ _ a = Spawn -> ~ may_send (task (ea_name _ _ a) sc h v) (schema_topic std) seq p) /\
    (forall a sc h v seq p, In a ta -> ta_flavor _ _ a = Spawn -> ~ may_send (task (ta_name _ _ a) sc h v) (schema_topic std) seq p) /\
    (forall t seq p, In t bg -> ~ may_send t (schema_topic std) seq p).
End Spec.

(** The error key differs, at the length of the keys that the server transmits, from the
    keys of responses and outgoing topics. *)
Definition error_apart (kk : VarKeyKind) (std : StdKeys) (eps : EndpointMap) (tout : TopicMap) : Prop :=
  ~ In (compact (klen kk) (k8_bytes (error_key std)))
       (map (fun k => compact (klen kk) (k8_bytes k)) (map ep_resp (em_endpoints eps) ++ map snd (tm_topics tout))).
