(** Independent vocabulary for schema reports. *)
From Coq Require Import NArith List.
From Verif Require Import KeyModel HeaderModel SchemaModel MacroModel MinKeyModel DispatchModel ReportModel.
Import ListNotations.

(** [Part a b]: [a] is [b] with some elements left out. *)
Inductive Part {A : Type} : list A -> list A -> Prop :=
  | part_nil : Part [] []
  | part_lose x a b : Part a b -> Part a (x :: b)
  | part_keep x a b : Part a b -> Part (x :: a) (x :: b).

(** [Mix a b c]: [c] is an interleaving of [a] and [b]. *)
Inductive Mix {A : Type} : list A -> list A -> list A -> Prop :=
  | mix_nil : Mix [] [] []
  | mix_l x a b c : Mix a b c -> Mix (x :: a) b (x :: c)
  | mix_r x a b c : Mix a b c -> Mix a (x :: b) (x :: c).

(** The rows of a report, without the types. *)
Definition ep_row (e : EndpointReport) : EpRow := (er_path e, er_req_key e, er_resp_key e).
Definition tp_row (t : TopicReport) : TpRow := (tp_path t, tp_key t).

(** The schema items a device got accepted by its transport. *)
Fixpoint published {Val SCtx} (tr : list (Event Val SCtx)) : list SchemaData :=
  match tr with
  | EvSend _ _ (PSchemaData d) TxOk :: tl => d :: published tl
  | _ :: tl => published tl
  | [] => []
  end.

(** The totals it sent. *)
Fixpoint totals_sent {Val SCtx} (tr : list (Event Val SCtx)) : list SchemaTotals :=
  match tr with
  | EvSend _ _ (PSchemaTotals t) TxOk :: tl => t :: totals_sent tl
  | _ :: tl => totals_sent tl
  | [] => []
  end.

(** Whether every frame was accepted. *)
Definition all_accepted {Val SCtx} (tr : list (Event Val SCtx)) : Prop :=
  forall w h p r, In (EvSend w h p r) tr -> r = TxOk.

Section Spec.
  Variable hash : NamedType -> str -> Key8.

  (** The types of [known] that [key] can stand for under [path]. *)
  Definition stands_for (known : list NamedType) (path : str) (key : Key8) (t : NamedType) : Prop :=
    In t known /\ hash t path = key.

  (** Every key of a row stands for a known type. *)
  Definition ep_resolvable (known : list NamedType) (r : EpRow) : Prop :=
    let '(path, rq, rp) := r in
    (exists t, stands_for known path rq t) /\ (exists t, stands_for known path rp t).
  Definition tp_resolvable (known : list NamedType) (r : TpRow) : Prop :=
    exists t, stands_for known (fst r) (snd r) t.

  (** A report is sound: every type named in it is among its types and hashes to
      the key it is reported for. *)
  Definition report_sound (r : SchemaReport) : Prop :=
    (forall e, In e (rp_endpoints r) ->
       stands_for (rp_types r) (er_path e) (er_req_key e) (er_req_ty e) /\
       stands_for (rp_types r) (er_path e) (er_resp_key e) (er_resp_ty e)) /\
    (forall t, In t (rp_topics_in r ++ rp_topics_out r) ->
       stands_for (rp_types r) (tp_path t) (tp_key t) (tp_ty t)).

  (** A report describes the device with map [m]: its endpoints and topics, in
      order, ... *)
  Definition same_rows (r : SchemaReport) (m : DeviceMap) : Prop :=
    map ep_row (rp_endpoints r) = dm_endpoints m /\
    map tp_row (rp_topics_in r) = dm_topics_in m /\
    map tp_row (rp_topics_out r) = dm_topics_out m.
  (** ... and exactly its types beside the built-in ones. *)
  Definition same_types (builtin : list NamedType) (r : SchemaReport) (m : DeviceMap) : Prop :=
    NoDup (rp_types r) /\
    forall t, In t (rp_types r) <-> In t builtin \/ In t (dm_types m).
End Spec.
