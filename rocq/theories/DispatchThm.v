(** Property theorems C09-C12 and C42: the dispatcher. *)
From Coq Require Import NArith List Bool Arith Lia.
From Verif Require Import KeyModel HeaderModel KeySpec HeaderSpec KeyProof MinKeyModel MinKeySpec MinKeyProof
  SchemaModel SchemaSpec SchemaThm MacroModel PostcardModel PostcardProof DispatchModel DispatchSpec DispatchProof.
Import ListNotations.

(** *** A concrete configuration used by the examples below *)
Definition xk (a : N) : Key8 := K8 a 0 0 0 0 0 0 0.
Definition x_std : StdKeys := MkStd (xk 1) (xk 2) (xk 3) (xk 4) (xk 5) (xk 6) (xk 7).
Definition x_eps : EndpointMap :=
  MkEpMap [] [([112], xk 1, xk 2); ([103], xk 3, xk 4); ([117], xk 10, xk 11); ([118], xk 12, xk 13)]%N.
Definition x_tin : TopicMap := MkTpMap ToServer [] [([116], xk 20)]%N.
Definition x_tout : TopicMap := MkTpMap ToClient [] [([115], xk 5); ([108], xk 7)]%N.
(** A request is one byte; the handler adds its call count to it. *)
Definition x_deser (l : list N) : option N := match l with [b] => Some b | _ => None end.
Definition x_arm : EpArm N N :=
  MkEpArm N N (xk 10) (xk 11) x_deser Blocking 7 (fun ctx _ v => HRet (ctx + 1, v + ctx))%N.
Definition x_spawn_arm : EpArm N N :=
  MkEpArm N N (xk 12) (xk 13) x_deser Spawn 8 (fun ctx _ v => HRet (ctx, v))%N.
Definition x_tparm : TpArm N N :=
  MkTpArm N N (xk 20) x_deser Async 9 (fun ctx _ v => HSend (xk 7) (Seq1 0) (PVal v) (fun _ => HRet (ctx + v)))%N.
Definition x_ea := [x_spawn_arm; x_arm].
Definition x_ta := [x_tparm].
Definition x_disp : Dispatcher N N :=
  Eval vm_compute in
  match define_dispatch N N x_eps x_tin x_tout x_ea x_ta with Done d => d | Panicked => MkDispatcher N N KK8 [] [] (MkMap [] [] [] [] KK8) end.
Definition x_net : Trace N N -> VarHeader -> Payload N -> TxRes := fun _ _ _ => TxOk.
Definition x_handle d := handle N N N x_std x_net (fun _ _ => false) KK1 (fun c => (c, c)) d.

Lemma x_config : config_ok x_eps x_tin x_tout x_ea x_ta /\ has_std x_std x_eps /\
  define_dispatch N N x_eps x_tin x_tout x_ea x_ta = Done x_disp.
Proof.
  split; [|split].
  - unfold config_ok, keys_ok. repeat split; repeat constructor; cbn; repeat constructor.
  - split; cbn; auto.
  - vm_compute. reflexivity.
Qed.

Section Thm.
  Context {Val Ctx SCtx : Type} (std : StdKeys).
  Variable net : Trace Val SCtx -> VarHeader -> Payload Val -> TxRes.
  Variable can_spawn : Trace Val SCtx -> nat -> bool.
  Variable kkind : VarKeyKind.
  Variable spawn_ctxt : Ctx -> Ctx * SCtx.
  Notation handle := (handle Val Ctx SCtx std net can_spawn kkind spawn_ctxt).
  Notation define_dispatch := (define_dispatch Val Ctx).
  Notation Tr := (Trace Val SCtx).

  (** ** C09 Requests reach their own handler *)

  (** Endpoints: whatever surrounds the handler in the list, exactly it is
      started, with the request's header and body, and nothing else. *)
  Theorem C09_endpoint_routing :
    forall eps tin tout before a after tps d,
      config_ok eps tin tout (before ++ a :: after) tps -> has_std std eps ->
      define_dispatch eps tin tout (before ++ a :: after) tps = Done d ->
      ~ In (ea_req _ _ a) (ping_req std :: schemas_req std :: map (@ea_req _ _) before) ->
    forall k hdr body req ctx (tr : Tr) ctx' res tr',
      klen (d_kind _ _ d) <= klen k ->
      hdr_key hdr = shrink_to (VKey8 (ea_req _ _ a)) k ->
      ea_deser _ _ a body = Some req ->
      (ea_flavor _ _ a = Spawn -> can_spawn tr (ea_name _ _ a) = true) ->
      handle d ctx hdr body tr = (ctx', res, tr') ->
      invocations tr' = invocations tr ++ [(ea_name _ _ a, hdr, req)].
  Proof.
    intros eps tin tout before a after tps d C S E N k hdr body req ctx tr ctx' res tr' L Hk Hd Hs H.
    rewrite (handle_endpoint std net can_spawn kkind spawn_ctxt _ _ _ _ _ _ before a after k hdr body ctx tr (made_for can_spawn _ _ _ _ _ _ C E) S eq_refl N L Hk), Hd in H.
    destruct (ep_arm_trace _ _ _ _ _ _ _ _ _ _ _ _ _ H) as (new & -> & M).
    rewrite invocations_app. destruct (ea_flavor _ _ a).
    - destruct M as [-> _]. reflexivity.
    - destruct M as [-> _]. reflexivity.
    - rewrite Hs in M by auto. destruct M as [-> _]. reflexivity.
  Qed.

  Theorem C09_topic_routing :
    forall eps tin tout ea before a after d,
      config_ok eps tin tout ea (before ++ a :: after) -> has_std std eps ->
      define_dispatch eps tin tout ea (before ++ a :: after) = Done d ->
      ~ In (ta_key _ _ a) (map (@ta_key _ _) before) ->
    forall k hdr body msg ctx (tr : Tr) ctx' res tr',
      klen (d_kind _ _ d) <= klen k ->
      hdr_key hdr = shrink_to (VKey8 (ta_key _ _ a)) k ->
      ta_deser _ _ a body = Some msg ->
      (ta_flavor _ _ a = Spawn -> can_spawn tr (ta_name _ _ a) = true) ->
      handle d ctx hdr body tr = (ctx', res, tr') ->
      res = TxOk /\
      invocations tr' = invocations tr ++ [(ta_name _ _ a, hdr, msg)] /\
      dispatcher_frames tr' = dispatcher_frames tr.
  Proof.
    intros eps tin tout ea before a after d C S E N k hdr body msg ctx tr ctx' res tr' L Hk Hd Hs H.
    rewrite (handle_topic std net can_spawn kkind spawn_ctxt _ _ _ _ _ _ before a after k hdr body ctx tr (made_for can_spawn _ _ _ _ _ _ C E) S eq_refl N L Hk), Hd in H.
    destruct (tp_arm_trace _ _ _ _ _ _ _ _ _ _ _ _ H) as (-> & new & -> & F & M).
    rewrite invocations_app, dispatcher_frames_app, F, app_nil_r. split; auto. split; auto.
    rewrite M. destruct (ta_flavor _ _ a); auto. now rewrite Hs.
  Qed.

  (** The built-in Ping endpoint echoes its number. *)
  Theorem C09_ping :
    forall (d : Dispatcher Val Ctx) k hdr n junk ctx (tr : Tr),
      klen (d_kind _ _ d) <= klen k ->
      hdr_key hdr = shrink_to (VKey8 (ping_req std)) k -> (n < 2 ^ 32)%N ->
      exists r, handle d ctx hdr (u32_varint n ++ junk) tr =
        (ctx, r, tr ++ [EvSend ByDispatcher (out_header kkind (ping_resp std) (hdr_seq hdr)) (PPing n) r]).
  Proof.
    intros d k hdr n junk ctx tr L Hk Hn.
    pose proof (handle_ping std net can_spawn kkind spawn_ctxt d k ctx hdr (u32_varint n ++ junk) tr L Hk) as H.
    now rewrite from_bytes_u32_enc in H.
  Qed.

  (** No request of any kind starts more than one handler. *)
  Theorem C09_at_most_one_handler :
    forall (d : Dispatcher Val Ctx) ctx hdr body (tr : Tr) ctx' res tr',
      ~ agree_at (klen (d_kind _ _ d)) (hdr_key hdr) (VKey8 (schemas_req std)) ->
      handle d ctx hdr body tr = (ctx', res, tr') ->
      exists new, invocations tr' = invocations tr ++ new /\ length new <= 1.
  Proof.
    intros d ctx hdr body tr ctx' res tr' N H.
    destruct (handle_frames _ _ _ _ _ _ _ _ _ _ _ _ _ N H) as (new & -> & _ & Iv).
    exists (invocations new). split; auto. apply invocations_app.
  Qed.

  (** ** C10 Refused requests *)
  Theorem C10_key_too_small :
    forall (d : Dispatcher Val Ctx) ctx hdr body (tr : Tr),
      vlen (hdr_key hdr) < klen (d_kind _ _ d) ->
      refused_with std kkind (hdr_seq hdr) KeyTooSmall ctx tr (handle d ctx hdr body tr).
  Proof. exact (handle_too_small std net can_spawn kkind spawn_ctxt). Qed.

  Theorem C10_unknown_key :
    forall (d : Dispatcher Val Ctx) ctx hdr body (tr : Tr),
      klen (d_kind _ _ d) <= vlen (hdr_key hdr) ->
      (forall k, In k (known_keys std d) -> ~ agree_at (klen (d_kind _ _ d)) (hdr_key hdr) (VKey8 k)) ->
      refused_with std kkind (hdr_seq hdr) UnknownKey ctx tr (handle d ctx hdr body tr).
  Proof. exact (handle_unknown std net can_spawn kkind spawn_ctxt). Qed.

  Theorem C10_endpoint_deser_failed :
    forall eps tin tout before a after tps d,
      config_ok eps tin tout (before ++ a :: after) tps -> has_std std eps ->
      define_dispatch eps tin tout (before ++ a :: after) tps = Done d ->
      ~ In (ea_req _ _ a) (ping_req std :: schemas_req std :: map (@ea_req _ _) before) ->
    forall k hdr body ctx (tr : Tr),
      klen (d_kind _ _ d) <= klen k ->
      hdr_key hdr = shrink_to (VKey8 (ea_req _ _ a)) k ->
      ea_deser _ _ a body = None ->
      refused_with std kkind (hdr_seq hdr) DeserFailed ctx tr (handle d ctx hdr body tr).
  Proof.
    intros eps tin tout before a after tps d C S E N k hdr body ctx tr L Hk Hd.
    rewrite (handle_endpoint std net can_spawn kkind spawn_ctxt _ _ _ _ _ _ before a after k hdr body ctx tr (made_for can_spawn _ _ _ _ _ _ C E) S eq_refl N L Hk), Hd.
    eexists. reflexivity.
  Qed.

  Theorem C10_ping_deser_failed :
    forall (d : Dispatcher Val Ctx) k hdr body ctx (tr : Tr),
      klen (d_kind _ _ d) <= klen k ->
      hdr_key hdr = shrink_to (VKey8 (ping_req std)) k -> from_bytes_u32 body = None ->
      refused_with std kkind (hdr_seq hdr) DeserFailed ctx tr (handle d ctx hdr body tr).
  Proof.
    intros d k hdr body ctx tr L Hk Hn.
    pose proof (handle_ping std net can_spawn kkind spawn_ctxt d k ctx hdr body tr L Hk) as H.
    now rewrite Hn in H.
  Qed.

  (** The context is what [spawn_ctxt] left; no handler started. *)
  Theorem C10_failed_to_spawn :
    forall eps tin tout before a after tps d,
      config_ok eps tin tout (before ++ a :: after) tps -> has_std std eps ->
      define_dispatch eps tin tout (before ++ a :: after) tps = Done d ->
      ~ In (ea_req _ _ a) (ping_req std :: schemas_req std :: map (@ea_req _ _) before) ->
    forall k hdr body req ctx (tr : Tr),
      klen (d_kind _ _ d) <= klen k ->
      hdr_key hdr = shrink_to (VKey8 (ea_req _ _ a)) k ->
      ea_deser _ _ a body = Some req ->
      ea_flavor _ _ a = Spawn -> can_spawn tr (ea_name _ _ a) = false ->
      exists r, handle d ctx hdr body tr =
        (fst (spawn_ctxt ctx), r,
         tr ++ [EvSpawn (ea_name _ _ a) (snd (spawn_ctxt ctx)) hdr req false;
                EvSend ByDispatcher (out_header kkind (error_key std) (hdr_seq hdr)) (PError FailedToSpawn) r]).
  Proof.
    intros eps tin tout before a after tps d C S E N k hdr body req ctx tr L Hk Hd Hf Hs.
    rewrite (handle_endpoint std net can_spawn kkind spawn_ctxt _ _ _ _ _ _ before a after k hdr body ctx tr (made_for can_spawn _ _ _ _ _ _ C E) S eq_refl N L Hk), Hd.
    unfold ep_arm. rewrite Hf, Hs. destruct (spawn_ctxt ctx) as [c sc]. cbn [negb fst snd].
    unfold send_error, send_keyed, tx_send. eexists. rewrite <- app_assoc. reflexivity.
  Qed.

  Theorem C10_topic_deser_failed :
    forall eps tin tout ea before a after d,
      config_ok eps tin tout ea (before ++ a :: after) -> has_std std eps ->
      define_dispatch eps tin tout ea (before ++ a :: after) = Done d ->
      ~ In (ta_key _ _ a) (map (@ta_key _ _) before) ->
    forall k hdr body ctx (tr : Tr),
      klen (d_kind _ _ d) <= klen k ->
      hdr_key hdr = shrink_to (VKey8 (ta_key _ _ a)) k ->
      ta_deser _ _ a body = None ->
      handle d ctx hdr body tr = (ctx, TxOk, tr).
  Proof.
    intros eps tin tout ea before a after d C S E N k hdr body ctx tr L Hk Hd.
    now rewrite (handle_topic std net can_spawn kkind spawn_ctxt _ _ _ _ _ _ before a after k hdr body ctx tr (made_for can_spawn _ _ _ _ _ _ C E) S eq_refl N L Hk), Hd.
  Qed.

  (** ** C11 One reply *)

  (** A blocking or async endpoint: the handler's own transmissions, then one
      frame with the handler's result under the response key and the request's
      sequence number; only if that was refused, one error frame. *)
  Theorem C11_exactly_one_reply :
    forall eps tin tout before a after tps d,
      config_ok eps tin tout (before ++ a :: after) tps -> has_std std eps ->
      define_dispatch eps tin tout (before ++ a :: after) tps = Done d ->
      ~ In (ea_req _ _ a) (ping_req std :: schemas_req std :: map (@ea_req _ _) before) ->
      ea_flavor _ _ a <> Spawn ->
    forall k hdr body req ctx (tr : Tr),
      klen (d_kind _ _ d) <= klen k ->
      hdr_key hdr = shrink_to (VKey8 (ea_req _ _ a)) k ->
      ea_deser _ _ a body = Some req ->
      exists ctx' v user,
        run_prog _ _ net kkind (ea_run _ _ a ctx hdr req) (tr ++ [EvRun (ea_name _ _ a) hdr req])
          = ((ctx', v), tr ++ EvRun (ea_name _ _ a) hdr req :: user) /\
        dispatcher_frames user = [] /\
        (handle d ctx hdr body tr =
           (ctx', TxOk, tr ++ EvRun (ea_name _ _ a) hdr req :: user ++
             [EvSend ByDispatcher (out_header kkind (ea_resp _ _ a) (hdr_seq hdr)) (PVal v) TxOk])
         \/ exists e r, handle d ctx hdr body tr =
           (ctx', r, tr ++ EvRun (ea_name _ _ a) hdr req :: user ++
             [EvSend ByDispatcher (out_header kkind (ea_resp _ _ a) (hdr_seq hdr)) (PVal v) (TxErr e);
              EvSend ByDispatcher (out_header kkind (error_key std) (hdr_seq hdr)) (PError SerFailed) r])).
  Proof.
    intros eps tin tout before a after tps d C S E N F k hdr body req ctx tr L Hk Hd.
    rewrite (handle_endpoint std net can_spawn kkind spawn_ctxt _ _ _ _ _ _ before a after k hdr body ctx tr (made_for can_spawn _ _ _ _ _ _ C E) S eq_refl N L Hk), Hd.
    destruct (ep_arm_runs std net can_spawn kkind spawn_ctxt a ctx hdr req tr F) as (c & v & tr1 & new & R & -> & _ & Fr & M).
    exists c, v, new. split; auto. split; auto.
    destruct M as [M|(e & r & M)]; rewrite M, <- app_assoc; [left|right; exists e, r]; reflexivity.
  Qed.

  (** Whatever the request (GetAllSchemas aside, see C42): the dispatcher gets at
      most one frame accepted by the transport, attempts a second one only after
      the first was refused, and all bear the request's sequence number. *)
  Theorem C11_at_most_one_reply :
    forall (d : Dispatcher Val Ctx) ctx hdr body (tr : Tr) ctx' res tr',
      ~ agree_at (klen (d_kind _ _ d)) (hdr_key hdr) (VKey8 (schemas_req std)) ->
      handle d ctx hdr body tr = (ctx', res, tr') ->
      exists new, dispatcher_frames tr' = dispatcher_frames tr ++ new /\
        length (filter (fun f => negb (is_err (snd f))) new) <= 1 /\
        (forall f, In f new -> hdr_seq (fst (fst f)) = hdr_seq hdr) /\
        (forall x y l, new = x :: y :: l -> is_err (snd x) = true /\ l = []
            /\ fst y = (out_header kkind (error_key std) (hdr_seq hdr), PError SerFailed)).
  Proof.
    intros d ctx hdr body tr ctx' res tr' N H.
    destruct (handle_frames _ _ _ _ _ _ _ _ _ _ _ _ _ N H) as (new & -> & F & _).
    exists (dispatcher_frames new). split; [apply dispatcher_frames_app|].
    destruct F as [->|[(h & p & r & -> & Hs)|(h & p & k & h' & r & -> & Hs & ->)]].
    - cbn. split; [lia|]. split; [intros ? []|discriminate].
    - cbn. split; [destruct r; cbn; lia|]. split; [intros f [<-|[]]; auto|discriminate].
    - cbn. split; [destruct r; cbn; lia|]. split; [intros f [<-|[<-|[]]]; auto|].
      intros x y l [= <- <- <-]. auto.
  Qed.

  (** ** C12, the true part: an unknown 8-byte key is refused unless it agrees
      with a handled key after compaction to the dispatcher's length.  (The full
      claim is refuted below.) *)
  Theorem C12_unknown_full_key_partial :
    forall (d : Dispatcher Val Ctx) ctx key seq body (tr : Tr),
      (forall k, In k (known_keys std d) ->
         compact (klen (d_kind _ _ d)) (k8_bytes key) <> compact (klen (d_kind _ _ d)) (k8_bytes k)) ->
      refused_with std kkind seq UnknownKey ctx tr (handle d ctx (MkHeader (VKey8 key) seq) body tr).
  Proof.
    intros d ctx key seq body tr N.
    apply (handle_unknown std net can_spawn kkind spawn_ctxt d ctx (MkHeader (VKey8 key) seq) body tr).
    - cbn [hdr_key]. rewrite vlen8. apply klen_le_8.
    - intros k Hk A. apply (N k Hk). exact A.
  Qed.

  (** In particular the claim holds in full for dispatchers using 8-byte keys. *)
  Theorem C12_unknown_full_key_long :
    forall (d : Dispatcher Val Ctx) ctx key seq body (tr : Tr),
      d_kind _ _ d = KK8 -> ~ In key (known_keys std d) ->
      refused_with std kkind seq UnknownKey ctx tr (handle d ctx (MkHeader (VKey8 key) seq) body tr).
  Proof.
    intros d ctx key seq body tr K N. apply C12_unknown_full_key_partial. rewrite K.
    intros k Hk E. apply N. cbn [klen] in E.
    assert (VKey8 key = VKey8 k) as [= ->]; auto. apply varkey_bytes_inj.
    destruct key, k. cbn in E |- *. rewrite !N.lxor_0_r in E. exact E.
  Qed.

  (** ** C42 The schema stream *)
  Theorem C42_schema_stream :
    forall eps tin tout ea ta d,
      config_ok eps tin tout ea ta -> has_std std eps -> ping_req std <> schemas_req std ->
      define_dispatch eps tin tout ea ta = Done d ->
      (N.of_nat (length (advertised (d_map _ _ d))) < 65536)%N ->
    forall k hdr body ctx (tr : Tr),
      klen (d_kind _ _ d) <= klen k ->
      hdr_key hdr = shrink_to (VKey8 (schemas_req std)) k ->
      exists rs r, length rs = length (advertised (d_map _ _ d)) /\
        handle d ctx hdr body tr =
        (ctx, r, tr ++ publications std kkind 0 (advertised (d_map _ _ d)) rs ++
          [EvSend ByDispatcher (out_header kkind (schemas_resp std) (hdr_seq hdr))
            (PSchemaTotals (MkTotals
               (N.of_nat (length (dm_types (d_map _ _ d))))
               (N.of_nat (length (em_endpoints eps)))
               (N.of_nat (length (tm_topics tin)))
               (N.of_nat (length (tm_topics tout)))
               (N.of_nat (failures rs)))) r]).
  Proof.
    intros eps tin tout ea ta d C S P E Lt k hdr body ctx tr L Hk.
    rewrite (handle_schemas std net can_spawn kkind spawn_ctxt _ _ _ _ _ _ _ _ _ _ _ (made_for can_spawn _ _ _ _ _ _ C E) S P L Hk).
    destruct (send_all_schemas_spec std net can_spawn kkind (hdr_seq hdr) (d_map _ _ d) tr) as (rs & r & Lr & Es).
    exists rs, r. rewrite all_items_advertised in *. split; auto. rewrite Es, (item_events_publications std can_spawn kkind) by lia.
    destruct (define_dispatch_inv can_spawn _ _ _ _ _ _ C E) as (_ & _ & _ & _ & _ & _ & _ & E1 & E2 & E3).
    pose proof Lt as Lt'. unfold advertised in Lt'. rewrite !app_length, !map_length, E1, E2, E3 in Lt'.
    assert (Lf : failures rs <= length rs) by (unfold failures; clear; induction rs as [|x rs IH]; cbn; [lia|destruct x; cbn; lia]).
    unfold u32_len. rewrite !N.mod_small, E1, E2, E3; try lia.
    - reflexivity.
    - change (err_count rs) with (failures rs). lia.
    - rewrite E3. lia.
    - rewrite E2. lia.
    - rewrite E1. lia.
  Qed.

  (** What is advertised is what was declared: the rows of the three tables, and each
      of their types once. *)
  Theorem C42_advertised_is_declared :
    forall eps tin tout ea ta d,
      define_dispatch eps tin tout ea ta = Done d ->
      dm_endpoints (d_map _ _ d) = em_endpoints eps /\
      dm_topics_in (d_map _ _ d) = tm_topics tin /\ dm_topics_out (d_map _ _ d) = tm_topics tout /\
      NoDup (dm_types (d_map _ _ d)) /\
      (forall t, In t (dm_types (d_map _ _ d)) <->
         ~ primitive t /\ (In t (em_types eps) \/ In t (tm_types tin) \/ In t (tm_types tout))).
  Proof.
    intros eps tin tout ea ta d H. unfold DispatchModel.define_dispatch in H.
    destruct (needed_sz _ _ _ _ _ _); [|discriminate]. destruct (kind_of_size _) as [kind|]; [|discriminate].
    destruct (device_map eps tin tout kind) as [m|] eqn:E; cbn [obind] in H; [|discriminate]. injection H as <-. cbn [d_map].
    destruct (C29_device_map _ _ _ _ _ E) as (E1 & E2 & E3 & _ & E4 & E5). auto 6.
  Qed.
End Thm.

(** A dispatcher the macro accepts satisfies what the theorems about whole systems ask
    of one. *)
Theorem C09_made_for :
  forall (Val Ctx : Type) eps tin tout (ea : list (EpArm Val Ctx)) (ta : list (TpArm Val Ctx)) d,
    config_ok eps tin tout ea ta -> define_dispatch Val Ctx eps tin tout ea ta = Done d ->
    dispatcher_for eps tin tout ea ta d.
Proof. intros Val Ctx eps tin tout ea ta d. apply (made_for (SCtx := unit) (fun _ _ => true)). Qed.
Print Assumptions C09_made_for.
Print Assumptions C09_endpoint_routing.
Print Assumptions C09_topic_routing.
Print Assumptions C09_ping.
Print Assumptions C09_at_most_one_handler.
Print Assumptions C10_key_too_small.
Print Assumptions C10_unknown_key.
Print Assumptions C10_endpoint_deser_failed.
Print Assumptions C10_ping_deser_failed.
Print Assumptions C10_failed_to_spawn.
Print Assumptions C10_topic_deser_failed.
Print Assumptions C11_exactly_one_reply.
Print Assumptions C11_at_most_one_reply.
Print Assumptions C12_unknown_full_key_partial.
Print Assumptions C12_unknown_full_key_long.
Print Assumptions C42_schema_stream.
Print Assumptions C42_advertised_is_declared.

(** *** Examples: the hypotheses are met and the conclusions are visible *)
Example C09_nontrivial :
  d_kind _ _ x_disp = KK1 /\
  x_handle x_disp 5%N (MkHeader (shrink_to (VKey8 (xk 10)) KK4) (Seq4 77)) [30%N] [] =
    (6%N, TxOk, [EvRun 7 (MkHeader (VKey4 (K4 10 0 0 0)) (Seq4 77)) 30%N;
                 EvSend ByDispatcher (MkHeader (VKey1 (K1 11)) (Seq4 77)) (PVal 35%N) TxOk]) /\
  x_handle x_disp 5%N (MkHeader (shrink_to (VKey8 (xk 20)) KK1) (Seq1 3)) [4%N] [] =
    (9%N, TxOk, [EvRun 9 (MkHeader (VKey1 (K1 20)) (Seq1 3)) 4%N;
                 EvSend ByHandler (MkHeader (VKey1 (K1 7)) (Seq1 0)) (PVal 4%N) TxOk]).
Proof. repeat split; vm_compute; reflexivity. Qed.
Example C10_nontrivial :
  snd (x_handle x_disp 5%N (MkHeader (VKey1 (K1 99)) (Seq4 77)) [] []) =
    [EvSend ByDispatcher (MkHeader (VKey1 (K1 6)) (Seq4 77)) (PError UnknownKey) TxOk] /\
  snd (x_handle x_disp 5%N (MkHeader (VKey1 (K1 10)) (Seq4 77)) [] []) =
    [EvSend ByDispatcher (MkHeader (VKey1 (K1 6)) (Seq4 77)) (PError DeserFailed) TxOk] /\
  snd (x_handle x_disp 5%N (MkHeader (VKey1 (K1 12)) (Seq4 77)) [1%N] []) =
    [EvSpawn 8 5%N (MkHeader (VKey1 (K1 12)) (Seq4 77)) 1%N false;
     EvSend ByDispatcher (MkHeader (VKey1 (K1 6)) (Seq4 77)) (PError FailedToSpawn) TxOk] /\
  snd (x_handle x_disp 5%N (MkHeader (VKey1 (K1 20)) (Seq4 77)) [] []) = [].
Proof. repeat split; vm_compute; reflexivity. Qed.
Example C42_nontrivial :
  length (snd (x_handle x_disp 5%N (MkHeader (VKey1 (K1 3)) (Seq4 77)) [] [])) = 8 /\
  nth 7 (snd (x_handle x_disp 5%N (MkHeader (VKey1 (K1 3)) (Seq4 77)) [] [])) (EvRun 0 (MkHeader (VKey1 (K1 3)) (Seq4 77)) 0%N)
  = EvSend ByDispatcher (MkHeader (VKey1 (K1 4)) (Seq4 77)) (PSchemaTotals (MkTotals 0 4 1 2 0)) TxOk.
Proof. repeat split; vm_compute; reflexivity. Qed.

(** ** C12 refuted: an 8-byte key that belongs to nothing runs a handler. *)
Theorem C12_unknown_full_key_refuted :
  exists (std : StdKeys) eps tin tout (ea : list (EpArm N N)) (ta : list (TpArm N N)) d key seq body ctx,
    config_ok eps tin tout ea ta /\ has_std std eps /\
    define_dispatch N N eps tin tout ea ta = Done d /\
    ~ In key (known_keys std d) /\
    invocations (snd (handle N N N std x_net (fun _ _ => true) KK8 (fun c => (c, c)) d ctx
                        (MkHeader (VKey8 key) seq) body [])) <> [].
Proof.
  exists x_std, x_eps, x_tin, x_tout, x_ea, x_ta, x_disp, (K8 0 0 0 0 0 0 0 10), (Seq4 1), [5%N], 0%N.
  destruct x_config as (C & S & E). split; [exact C|]. split; [exact S|]. split; [exact E|]. split.
  - vm_compute. intros H. repeat (destruct H as [H|H]; [discriminate H|]). exact H.
  - vm_compute. discriminate.
Qed.
Print Assumptions C12_unknown_full_key_refuted.

(** C09 needs [has_std]: with [omit_std] tables a user endpoint can be shadowed
    by the built-in Ping, which is always matched first. *)
Definition x_eps_nostd : EndpointMap := MkEpMap [] [([117], xk 10, xk 11)]%N.
Definition x_std2 : StdKeys := MkStd (K8 0 0 0 0 0 0 0 10) (xk 2) (xk 3) (xk 4) (xk 5) (xk 6) (xk 7).
Definition x_none (dir : TopicDirection) : TopicMap := MkTpMap dir [] [].
Theorem C09_shadowed_without_std_refuted :
  exists (std : StdKeys) eps tin tout (a : EpArm N N) d hdr body,
    config_ok eps tin tout [a] [] /\
    define_dispatch N N eps tin tout [a] [] = Done d /\
    ~ In (ea_req _ _ a) [ping_req std; schemas_req std] /\
    hdr_key hdr = VKey8 (ea_req _ _ a) /\ ea_deser _ _ a body <> None /\
    invocations (snd (handle N N N std x_net (fun _ _ => true) KK8 (fun c => (c, c)) d 0%N hdr body [])) = [].
Proof.
  exists x_std2, x_eps_nostd, (x_none ToServer), (x_none ToClient), x_arm.
  eexists. exists (MkHeader (VKey8 (xk 10)) (Seq4 1)), [5%N].
  split. { unfold config_ok, keys_ok. repeat split; repeat constructor; cbn; repeat constructor. }
  split. { vm_compute. reflexivity. }
  split. { vm_compute. intros H. repeat (destruct H as [H|H]; [discriminate H|]). exact H. }
  split; [reflexivity|]. split; [discriminate|]. vm_compute. reflexivity.
Qed.
Print Assumptions C09_shadowed_without_std_refuted.
