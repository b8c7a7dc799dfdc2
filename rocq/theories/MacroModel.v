(** The tables generated by [endpoints!], [topics!] and [define_dispatch!].
    Source: /repo/source/postcard-rpc/src/macros.rs:92-404,
    server/dispatch_macro.rs:401-432, standard_icd.rs:127-154.
    [for_path] is the hash [Key::for_path] of the postcard-rpc / postcard-schema
    crates: any function of type schema and path.  Cfg-ed rows (macros.rs [Cfg]
    column) are simply absent from the row list. *)
From Coq Require Import NArith List Bool Arith.
From Verif Require Import KeyModel HeaderModel MinKeyModel SchemaModel.
Import ListNotations.

(** One row of an [endpoints!] table: (request type, response type, path). *)
Record EpDef := MkEpDef { ed_request : NamedType; ed_response : NamedType; ed_path : str }.
(** One row of a [topics!] table. *)
Record TpDef := MkTpDef { td_message : NamedType; td_path : str }.

Inductive TopicDirection := ToServer | ToClient.

(** lib.rs:452-462 [EndpointMap], 465-478 [TopicMap] *)
Record EndpointMap := MkEpMap { em_types : list NamedType; em_endpoints : list EpRow }.
Record TopicMap := MkTpMap { tm_dir : TopicDirection; tm_types : list NamedType; tm_topics : list TpRow }.

Definition obind {A B} (o : outcome A) (f : A -> outcome B) : outcome B :=
  match o with Done a => f a | Panicked => Panicked end.

(** Evaluate a list of const blocks, in order. *)
Fixpoint oseq {A} (l : list (outcome A)) : outcome (list A) :=
  match l with
  | [] => Done []
  | x :: tl => obind x (fun a => obind (oseq tl) (fun r => Done (a :: r)))
  end.

Section Macros.
  Variable for_path : NamedType -> str -> Key8.

  Definition ed_req_key (e : EpDef) : Key8 := for_path (ed_request e) (ed_path e).
  Definition ed_resp_key (e : EpDef) : Key8 := for_path (ed_response e) (ed_path e).
  Definition td_key (t : TpDef) : Key8 := for_path (td_message t) (td_path t).

  (** macros.rs:97-113 [@ep_tys omit_std=true] *)
  Definition ep_tys_user (rows : list EpDef) : outcome (list NamedType) :=
    obind (oseq (flat_map (fun e => [unique_types (ed_request e); unique_types (ed_response e)]) rows))
          merge_types.

  (** macros.rs:136-147 [@ep_eps omit_std=true] *)
  Definition ep_eps_user (rows : list EpDef) : list EpRow :=
    map (fun e => (ed_path e, ed_req_key e, ed_resp_key e)) rows.

  Definition NULL_KEY : Key8 := K8 0 0 0 0 0 0 0 0.

  (** macros.rs:114-130 and 148-162, [omit_std=false] *)
  Definition endpoints_macro (std : option EndpointMap) (rows : list EpDef) : outcome EndpointMap :=
    match std with
    | None =>
      obind (ep_tys_user rows) (fun tys => Done (MkEpMap tys (ep_eps_user rows)))
    | Some s =>
      obind (ep_tys_user rows) (fun user =>
      obind (merge_types [user; em_types s]) (fun tys =>
      obind (concat_arrays ([], NULL_KEY, NULL_KEY) [em_endpoints s; ep_eps_user rows]) (fun eps =>
      Done (MkEpMap tys eps))))
    end.

  (** macros.rs:280-294 [@tp_tys omit_std=true] *)
  Definition tp_tys_user (rows : list TpDef) : outcome (list NamedType) :=
    obind (oseq (map (fun t => unique_types (td_message t)) rows)) merge_types.
  (** macros.rs:321-331 [@tp_tps omit_std=true] *)
  Definition tp_tps_user (rows : list TpDef) : list TpRow :=
    map (fun t => (td_path t, td_key t)) rows.

  (** macros.rs:295-316 and 332-348, [omit_std=false]; [std] is the standard
      table for the direction. *)
  Definition topics_macro (dir : TopicDirection) (std : option TopicMap) (rows : list TpDef)
    : outcome TopicMap :=
    match std with
    | None => obind (tp_tys_user rows) (fun tys => Done (MkTpMap dir tys (tp_tps_user rows)))
    | Some s =>
      obind (tp_tys_user rows) (fun user =>
      obind (merge_types [tm_types s; user]) (fun tys =>
      obind (concat_arrays ([], NULL_KEY) [tm_topics s; tp_tps_user rows]) (fun tps =>
      Done (MkTpMap dir tys tps))))
    end.
End Macros.

(** lib.rs:433-448 [DeviceMap] *)
Record DeviceMap := MkMap {
  dm_types : list NamedType;
  dm_endpoints : list EpRow;
  dm_topics_in : list TpRow;
  dm_topics_out : list TpRow;
  dm_min_key_len : VarKeyKind
}.

(** server/dispatch_macro.rs:405-431: the DeviceMap of a dispatcher. *)
Definition device_map (eps : EndpointMap) (tin tout : TopicMap) (kind : VarKeyKind)
  : outcome DeviceMap :=
  obind (merge_types [em_types eps; tm_types tin; tm_types tout]) (fun tys =>
  Done (MkMap tys (em_endpoints eps) (tm_topics tin) (tm_topics tout) kind)).
