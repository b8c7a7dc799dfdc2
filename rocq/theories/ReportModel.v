(** The host's schema report.
    Source: /repo/source/postcard-rpc/src/host_client/mod.rs:251-321
    ([get_schema_report]), 973-1170 ([SchemaReport], [TopicReport],
    [EndpointReport], [add_type], [add_topic_in], [add_topic_out],
    [add_endpoint]).

    Outside the model, hence arbitrary:
    - the hash [Key::for_owned_schema_path] (postcard-schema crate);
    - the schemas of the eighteen built-in types inserted by
      [SchemaReport::default] (also postcard-schema): [builtin];
    - the iteration order of the [HashSet]: [order].  The set is not changed while
      endpoints and topics are resolved, so its order is one fixed function of the
      set;
    - what [sub.recv()] yields and when (100 ms timer, broadcast channel): a list
      of outcomes.  The subscription itself is modelled in SubModel.v;
    - the reply to the GetAllSchemas request (ClientModel.v). *)
From Coq Require Import NArith List Bool.
From Verif Require Import KeyModel HeaderModel SchemaModel MacroModel DispatchModel.
Import ListNotations.

(** mod.rs:1036-1045 *)
Record TopicReport := MkTpRep { tp_path : str; tp_key : Key8; tp_ty : NamedType }.
(** mod.rs:1047-1060 *)
Record EndpointReport := MkEpRep {
  er_path : str; er_req_key : Key8; er_req_ty : NamedType;
  er_resp_key : Key8; er_resp_ty : NamedType }.

(** mod.rs:973-986.  [rp_types] holds every element of the set once, in order of
    insertion; order of iteration is applied where the code iterates. *)
Record SchemaReport := MkReport {
  rp_types : list NamedType;
  rp_topics_in : list TopicReport;
  rp_topics_out : list TopicReport;
  rp_endpoints : list EndpointReport }.

(** mod.rs:223-235 [SchemaError]; [E] is [HostErr<WireErr>] without [Closed]. *)
Inductive CommErr (E : Type) := CClosed | COther (e : E).
Arguments CClosed {E}. Arguments COther {E}.
Inductive SchemaError (E : Type) :=
  | SComms (e : CommErr E) | STaskError | SInvalidReportData | SLostData.
Arguments SComms {E}. Arguments STaskError {E}. Arguments SInvalidReportData {E}. Arguments SLostData {E}.

(** What one [tokio::time::timeout(100ms, sub.recv()).await] yields. *)
Inductive RecvOutcome := Got (d : SchemaData) | Lagged | IoClosed | Elapsed.

(** mod.rs:258-266: the collecting task: up to the first outcome that is not an
    item. *)
Fixpoint collect (l : list RecvOutcome) : list SchemaData :=
  match l with Got d :: tl => d :: collect tl | _ => [] end.

Section Report.
  Variable for_owned : NamedType -> str -> Key8.
  Variable builtin : list NamedType.
  Variable order : list NamedType -> list NamedType.

  (** mod.rs:1074-1076 [add_type]: [HashSet::insert]. *)
  Definition add_type (r : SchemaReport) (t : NamedType) : SchemaReport :=
    if existsb (nty_eq t) (rp_types r) then r
    else MkReport (rp_types r ++ [t]) (rp_topics_in r) (rp_topics_out r) (rp_endpoints r).

  (** mod.rs:988-1034 [default] *)
  Definition default_report : SchemaReport :=
    fold_left add_type builtin (MkReport [] [] [] []).

  (** mod.rs:1083-1092, 1102-1111, 1127-1133, 1138-1144: the first type, in order
      of iteration, whose hash with the path is the key. *)
  Definition find_type (r : SchemaReport) (path : str) (key : Key8) : option NamedType :=
    find (fun ty => key8_eqb (for_owned ty path) key) (order (rp_types r)).

  (** mod.rs:1081-1095 [add_topic_in]; [None] is [UnableToFindType]. *)
  Definition add_topic_in (r : SchemaReport) (path : str) (key : Key8) : option SchemaReport :=
    match find_type r path key with
    | Some ty => Some (MkReport (rp_types r) (rp_topics_in r ++ [MkTpRep path key ty]) (rp_topics_out r) (rp_endpoints r))
    | None => None
    end.

  (** mod.rs:1100-1114 [add_topic_out] *)
  Definition add_topic_out (r : SchemaReport) (path : str) (key : Key8) : option SchemaReport :=
    match find_type r path key with
    | Some ty => Some (MkReport (rp_types r) (rp_topics_in r) (rp_topics_out r ++ [MkTpRep path key ty]) (rp_endpoints r))
    | None => None
    end.

  (** mod.rs:1119-1160 [add_endpoint] *)
  Definition add_endpoint (r : SchemaReport) (path : str) (req_key resp_key : Key8) : option SchemaReport :=
    match find_type r path req_key with
    | None => None
    | Some req_ty =>
      match find_type r path resp_key with
      | None => None
      | Some resp_ty =>
        Some (MkReport (rp_types r) (rp_topics_in r) (rp_topics_out r)
                (rp_endpoints r ++ [MkEpRep path req_key req_ty resp_key resp_ty]))
      end
    end.

  (** mod.rs:276-286: the first pass over the data. *)
  Fixpoint first_pass (data : list SchemaData) (r : SchemaReport) (rest : list SchemaData)
    : SchemaReport * list SchemaData :=
    match data with
    | [] => (r, rest)
    | SDType t :: tl => first_pass tl (add_type r t) rest
    | x :: tl => first_pass tl r (rest ++ [x])
    end.

  (** mod.rs:288-307: the second pass.  The [unreachable!()] of line 290 is the
      [SDType] case: [first_pass] puts no type into the second list. *)
  Inductive Pass2 := P2Ok (r : SchemaReport) | P2NotFound | P2Panic.
  Fixpoint second_pass (data : list SchemaData) (r : SchemaReport) : Pass2 :=
    match data with
    | [] => P2Ok r
    | SDType _ :: _ => P2Panic
    | SDEndpoint path rq rp :: tl =>
        match add_endpoint r path rq rp with Some r' => second_pass tl r' | None => P2NotFound end
    | SDTopic path key ToServer :: tl =>
        match add_topic_in r path key with Some r' => second_pass tl r' | None => P2NotFound end
    | SDTopic path key ToClient :: tl =>
        match add_topic_out r path key with Some r' => second_pass tl r' | None => P2NotFound end
    end.

  (** [x as usize == v.len()] for a u32 [x] (host: 64-bit usize). *)
  Definition len_is {A} (x : N) (v : list A) : bool := (x =? N.of_nat (length v))%N.

  (** mod.rs:309-320 *)
  Definition data_matches (t : SchemaTotals) (r : SchemaReport) : bool :=
    len_is (endpoints_sent t) (rp_endpoints r) && len_is (topics_in_sent t) (rp_topics_in r) &&
    len_is (topics_out_sent t) (rp_topics_out r) && (errors t =? 0)%N.

  (** mod.rs:251-321 [get_schema_report].  [subscribed]: whether [subscribe_multi]
      succeeded; [stream]: outcomes seen by the collecting task, [None] if the task
      failed to join; [reply]: result of [send_resp]. *)
  Definition get_schema_report {E} (subscribed : bool) (stream : option (list RecvOutcome))
      (reply : SchemaTotals + CommErr E) : outcome (SchemaReport + SchemaError E) :=
    if negb subscribed then Done (inr (SComms CClosed))
    else match reply, stream with
    | inl _, None => Done (inr STaskError)
    | inr e, _ => Done (inr (SComms e))
    | inl resp, Some outs =>
      let (rpt, e_and_t) := first_pass (collect outs) default_report [] in
      match second_pass e_and_t rpt with
      | P2Panic => Panicked
      | P2NotFound => Done (inr SInvalidReportData)
      | P2Ok rpt => if data_matches resp rpt then Done (inl rpt) else Done (inr SLostData)
      end
    end.
End Report.
