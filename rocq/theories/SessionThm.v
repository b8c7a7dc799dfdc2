(** Theorems about one client after another. *)
From Coq Require Import NArith ZArith List Bool Arith Lia Permutation.
From Verif Require Import KeyModel HeaderModel KeySpec HeaderSpec MinKeyModel MinKeySpec
  SchemaModel MacroModel PostcardModel DispatchModel DispatchSpec SubModel SubSpec ClientModel ClientSpec.
From Verif Require Import UsbSpec DispatchModel DispatchSpec SystemModel SystemSpec SystemProof FlowSpec FlowThm LiveSpec LiveProof AsyncModel AsyncSpec AsyncProof AsyncThm
  SessionModel SessionSpec SessionProof.
From Verif Require DispatchProof CodecModel CodecSpec CodecStdModel TypedSpec TypedThm.
Import ListNotations.

Section T.
  Context {Val Ctx SCtx : Type}.
  Variable std : StdKeys.
  Variable net : Trace Val SCtx -> VarHeader -> Payload Val -> TxRes.
  Variable can_spawn : Trace Val SCtx -> nat -> bool.
  Variable kkind : VarKeyKind.
  Variable spawn_ctxt : Ctx -> Ctx * SCtx.
  Variable d : Dispatcher Val Ctx.
  Variable enc : Payload Val -> list N.
  Variable task : nat -> SCtx -> VarHeader -> Val -> HProg Val unit.
  Variable cfg : Config.

  Notation a_step := (a_step Val Ctx SCtx std net can_spawn kkind spawn_ctxt d enc task cfg).
  Notation a_run := (a_run Val Ctx SCtx std net can_spawn kkind spawn_ctxt d enc task cfg).
  Notation a_sys := (a_sys Val Ctx SCtx).
  Notation a_cur := (a_cur Val Ctx SCtx).
  Notation y_trace := (y_trace Val Ctx SCtx).
  Notation reconnect := (reconnect Val Ctx SCtx).

  (** ** C74 One client after another *)

  (** A client that connects when the link is empty and the server is not dispatching
      meets a new device: one that starts in the context and with the tasks that the old
      one has, and whose network goes on where the old one's is. *)
  Theorem C74_like_a_new_device :
    forall a, a_cur a = None -> y_up _ _ _ (a_sys a) = [] -> y_down _ _ _ (a_sys a) = [] ->
    forall ls a' cl es, a_run ls (reconnect a) = Some (a', cl, es) ->
      exists b,
        AsyncModel.a_run Val Ctx SCtx std (fun t => net (y_trace (a_sys a) ++ t)) (fun t => can_spawn (y_trace (a_sys a) ++ t))
          kkind spawn_ctxt d enc task cfg ls (asys_new Val Ctx SCtx (y_tasks _ _ _ (a_sys a)) (y_ctx _ _ _ (a_sys a))) = Some (b, cl, es) /\
        did a a' (y_trace (a_sys b)) /\
        y_client _ _ _ (a_sys a') = y_client _ _ _ (a_sys b) /\ y_up _ _ _ (a_sys a') = y_up _ _ _ (a_sys b) /\
        y_down _ _ _ (a_sys a') = y_down _ _ _ (a_sys b) /\ y_ctx _ _ _ (a_sys a') = y_ctx _ _ _ (a_sys b) /\
        y_tasks _ _ _ (a_sys a') = y_tasks _ _ _ (a_sys b) /\ y_serving _ _ _ (a_sys a') = y_serving _ _ _ (a_sys b) /\
        a_cur a' = a_cur b.
  Proof.
    intros a C U D ls a' cl es H. rewrite (reconnect_shift a C U D), run_shift in H.
    destruct (AsyncModel.a_run _ _ _ _ _ _ _ _ _ _ _ _ ls _) as [[[b cl'] es']|] eqn:R; [|discriminate]. injection H as <- <- <-.
    exists b. split; [reflexivity|]. repeat split.
  Qed.

  Variable eps : EndpointMap.
  Variable tin tout : TopicMap.
  Variable ea : list (EpArm Val Ctx).
  Variable ta : list (TpArm Val Ctx).
  Hypothesis Hdisp : dispatcher_for eps tin tout ea ta d.
  Hypothesis Hdev : device_ok std eps tout ea.
  Hypothesis Hkk : klen (d_kind _ _ d) <= klen kkind.

  Lemma handlers_left bg a : handlers_ok std tout ea ta task bg -> settled tout a -> handlers_ok std tout ea ta task (y_tasks _ _ _ (a_sys a)).
  Proof.
    intros (H1 & H2 & H3 & H4 & _) (_ & _ & _ & F). do 4 (split; [assumption|]).
    intros p key seq pl Hp M. rewrite Forall_forall in F. exact (F _ Hp _ _ _ M).
  Qed.

  Section One.
  (** A client connects to a settled device ([a]), and this is what happens ([ls]) until
      the state is [a']. *)
  Variable bg : list (HProg Val unit).
  Hypothesis Hhand : handlers_ok std tout ea ta task bg.
  Variable a a' : ASys Val Ctx SCtx.
  Hypothesis Hset : settled tout a.
  Variable ls : list ALabel.
  Variable cl : list Label.
  Variable es : list (list Ev).
  Hypothesis Hrun : a_run ls (reconnect a) = Some (a', cl, es).
  Hypothesis Hlab : Forall (label_ok eps tin) cl.

  Ltac new b tr R := destruct Hset as (C & U & D & T);
    destruct (C74_like_a_new_device a C U D ls a' cl es Hrun) as (b & R & tr & _).

  (** Its replies are the answers to its own requests, worked out since it connected. *)
  Theorem C74_reply_is_the_answer :
    (N.of_nat (typed cl) <= 2 ^ 32)%N ->
    ~ In (compact (klen kkind) (k8_bytes (error_key std)))
         (map (fun k => compact (klen kkind) (k8_bytes k)) (map ep_resp (em_endpoints eps))) ->
    exists tr, did a a' tr /\
    forall r f, In (r, GotReply f) (results es) ->
      exists req resp body p,
        nth_error (issued 0 cl) r = Some (MkFrame (MkHeader (VKey8 req) (Seq4 (N.of_nat r))) body, resp) /\
        (exists missing, enc p = f_body f ++ missing) /\
        (uncut (system_labels ls) -> f_body f = enc p) /\
        answered std ea task d tr req (N.of_nat r) body p.
  Proof.
    intros Hc Hek. pose proof (handlers_left _ _ Hhand Hset) as Hh. new b tr R. exists (y_trace (a_sys b)). split; [exact tr|].
    eapply C73_reply_is_the_answer; eauto.
  Qed.

  (** Since it connected, handlers run for its own calls only, each at most once and in
      the order of the calls. *)
  Theorem C74_every_run_was_called :
    exists tr calls, did a a' tr /\
      Forall2 (run_of ea ta cl) (invocations tr) calls /\ NoDup calls /\ incl calls (accepted cl es) /\
      (up_in_order (system_labels ls) -> subsequence calls (accepted cl es)).
  Proof.
    pose proof (handlers_left _ _ Hhand Hset) as Hh. new b tr R. exists (y_trace (a_sys b)).
    assert (X : exists calls, Forall2 (run_of ea ta cl) (invocations (y_trace (a_sys b))) calls /\ NoDup calls /\ incl calls (accepted cl es) /\
      (up_in_order (system_labels ls) -> subsequence calls (accepted cl es))) by (eapply C73_every_run_was_called; eauto).
    destruct X as (calls & X). exists calls. auto.
  Qed.

  (** Its subscriptions are given what was transmitted under their topic since it
      connected, in the order of transmission. *)
  Theorem C74_given_was_sent :
    exists tr, did a a' tr /\
    forall k id, subscribed cl es k id ->
      exists ps, Forall2 (body_of enc (system_labels ls)) (given cl es id) ps /\
        (exists rest, Permutation (sent_on tr k) (ps ++ rest)) /\
        (down_in_order (system_labels ls) -> subsequence ps (sent_on tr k)).
  Proof.
    pose proof (handlers_left _ _ Hhand Hset) as Hh. new b tr R. exists (y_trace (a_sys b)). split; [exact tr|].
    intros k id Hs. eapply C73_given_was_sent; eauto.
  Qed.
  Theorem C74_given_multi_was_sent :
    exists tr, did a a' tr /\
    forall k id, subscribed_multi cl es k id ->
      exists ps, Forall2 (body_of enc (system_labels ls)) (given_multi cl es id) ps /\
        (exists rest, Permutation (sent_on tr k) (ps ++ rest)) /\
        (down_in_order (system_labels ls) -> subsequence ps (sent_on tr k)).
  Proof.
    pose proof (handlers_left _ _ Hhand Hset) as Hh. new b tr R. exists (y_trace (a_sys b)). split; [exact tr|].
    intros k id Hs. eapply C73_given_multi_was_sent; eauto.
  Qed.

  (** (Partial, like C70: the hypothesis about subscriptions.)  Once the system is at rest
      again, its calls have returned, unless their frames or the answers were lost. *)
  Theorem C74_waits_because_lost_partial :
    cfg_err_key cfg = error_key std -> tasks_answer std ea task -> 0 < cfg_depth cfg ->
    (N.of_nat (typed cl) <= 2 ^ 32)%N -> subscriptions_apart kkind std eps cl ->
    (forall h p r, In (EvSend ByDispatcher h p r) (y_trace (a_sys a')) -> r <> TxErr TxConnectionClosed /\ r <> TxErr TxTimeout) ->
    (forall l, a_own_step l = true -> a_step l a' = None) ->
    forall r f resp, nth_error (issued 0 cl) r = Some (f, resp) -> ~ In (LCancel r) cl ->
      (exists res, In (r, res) (results es)) \/
      (exists b, In b (a_lost a_step loses_up ls (reconnect a)) /\ request_frame f b) \/
      (exists b, In b (a_lost a_step loses_down ls (reconnect a)) /\ answer_frame kkind std resp r b).
  Proof.
    intros Hce Hans Hdepth Hc Hsubs Hsent Hrest. destruct Hset as (C & U & D & T). pose proof Hrun as H.
    rewrite (reconnect_shift a C U D) in H |- *. rewrite !lost_shift by (intros [] s; reflexivity). rewrite run_shift in H.
    match type of H with match ?x with _ => _ end = _ => destruct x as [[[b cl'] es']|] eqn:R; [|discriminate] end.
    injection H as Ea E1 E2. subst cl' es'.
    eapply C73_waits_because_lost_partial; eauto.
    - intros h p r Hi. apply (Hsent h p r). rewrite <- Ea. cbn. apply in_app_iff. auto.
    - intros l Hl. specialize (Hrest l Hl). rewrite <- Ea, step_shift in Hrest.
      destruct (AsyncModel.a_step _ _ _ _ _ _ _ _ _ _ _ _ l b); [discriminate|reflexivity].
  Qed.
  Theorem C74_every_call_returns_partial :
    cfg_err_key cfg = error_key std -> tasks_answer std ea task -> 0 < cfg_depth cfg ->
    (N.of_nat (typed cl) <= 2 ^ 32)%N -> subscriptions_apart kkind std eps cl ->
    (forall h p r, In (EvSend ByDispatcher h p r) (y_trace (a_sys a')) -> r <> TxErr TxConnectionClosed /\ r <> TxErr TxTimeout) ->
    (forall l, a_own_step l = true -> a_step l a' = None) ->
    lossless (system_labels ls) -> forall r, r < length (issued 0 cl) -> ~ In (LCancel r) cl -> exists res, In (r, res) (results es).
  Proof.
    intros Hce Hans Hdepth Hc Hsubs Hsent Hrest Hless. destruct Hset as (C & U & D & T). pose proof Hrun as H.
    rewrite (reconnect_shift a C U D), run_shift in H.
    match type of H with match ?x with _ => _ end = _ => destruct x as [[[b cl'] es']|] eqn:R; [|discriminate] end.
    injection H as Ea E1 E2. subst cl' es'.
    eapply C73_every_call_returns_partial; eauto.
    - intros h p r Hi. apply (Hsent h p r). rewrite <- Ea. cbn. apply in_app_iff. auto.
    - intros l Hl. specialize (Hrest l Hl). rewrite <- Ea, step_shift in Hrest.
      destruct (AsyncModel.a_step _ _ _ _ _ _ _ _ _ _ _ _ l b); [discriminate|reflexivity].
  Qed.
  End One.

  (** On a device none of whose endpoints has a spawned handler, all that a new client has
      to wait for is that the link is empty and the server not dispatching: then each of
      any number of clients, one after another, gets the answers to its own requests. *)
  Theorem C74_no_answer_crosses_sessions :
    forall a0 hs ses,
      handlers_ok std tout ea ta task (y_tasks _ _ _ (a_sys a0)) -> a_cur a0 = None ->
      (forall x, In x ea -> ea_flavor _ _ x <> Spawn) ->
      ~ In (compact (klen kkind) (k8_bytes (error_key std)))
           (map (fun k => compact (klen kkind) (k8_bytes k)) (map ep_resp (em_endpoints eps))) ->
      sessions Val Ctx SCtx std net can_spawn kkind spawn_ctxt d enc task cfg hs a0 = Some ses ->
      Forall (fun se => a_cur (se_start se) = None /\ y_up _ _ _ (a_sys (se_start se)) = [] /\ y_down _ _ _ (a_sys (se_start se)) = []) ses ->
      Forall (fun se => Forall (label_ok eps tin) (se_labels se) /\ (N.of_nat (typed (se_labels se)) <= 2 ^ 32)%N) ses ->
      forall se, In se ses ->
        settled tout (se_start se) /\
        exists tr, did (se_start se) (se_end se) tr /\
        forall r f, In (r, GotReply f) (results (se_events se)) ->
          exists req resp body p,
            nth_error (issued 0 (se_labels se)) r = Some (MkFrame (MkHeader (VKey8 req) (Seq4 (N.of_nat r))) body, resp) /\
            (exists missing, enc p = f_body f ++ missing) /\
            (uncut (system_labels (se_steps se)) -> f_body f = enc p) /\
            answered std ea task d tr req (N.of_nat r) body p.
  Proof.
    intros a0 hs ses Hh C0 Hsp Hek.
    assert (Edp : d_eps _ _ d = ea /\ d_tps _ _ d = ta).
    { destruct Hdisp as (E1 & E2 & _). auto. }
    destruct Edp as [Ee Et].
    assert (Hep : no_endpoint_tasks d). { intros x Hx. rewrite Ee in Hx. auto. }
    assert (Htp : topic_tasks_publish (SCtx := SCtx) d task tout). { destruct Hh as (_ & _ & _ & H4 & _). intros x sc h v Hx Fx key seq p M. rewrite Et in Hx. exact (H4 _ _ _ _ _ _ _ Hx Fx M). }
    assert (Q0 : quiet task tout a0).
    { split; [|rewrite C0; exact Logic.I]. apply Forall_forall. destruct Hh as (_ & _ & _ & _ & H5). intros t Ht key seq p M. exact (H5 _ _ _ _ Ht M). }
    assert (HH : forall x, settled tout x -> handlers_ok std tout ea ta task (y_tasks _ _ _ (a_sys x))) by (intros x; eapply handlers_left; eauto).
    clear C0. revert a0 Hh Q0 ses. induction hs as [|ls hs IH]; intros a0 Hh Q0 ses Hs Hst Hl se Hin; cbn [sessions] in Hs.
    { injection Hs as <-. destruct Hin. }
    destruct (a_run ls (reconnect a0)) as [[[a' cl] es]|] eqn:R; [|discriminate].
    destruct (sessions _ _ _ _ _ _ _ _ _ _ _ _ hs a') as [rest|] eqn:Rs; [|discriminate]. injection Hs as <-.
    pose proof (Forall_inv Hst) as S1. pose proof (Forall_inv_tail Hst) as S2. pose proof (Forall_inv Hl) as L1. pose proof (Forall_inv_tail Hl) as L2.
    cbn [se_start se_labels] in S1, L1.
    assert (Qr : quiet task tout (reconnect a0)) by (destruct Q0; split; auto).
    assert (Set1 : settled tout (reconnect a0)). { destruct S1 as (S3 & S4 & S5). split; auto. split; auto. split; auto. apply Qr. }
    assert (Q' : quiet task tout a') by (eapply run_quiet; eauto).
    destruct Hin as [<-|Hin].
    - cbn [se_start se_end se_events se_labels se_steps]. split; [exact Set1|].
      destruct L1 as [L3 L4]. exact (C74_reply_is_the_answer _ (HH _ Set1) (reconnect a0) a' Set1 ls cl es R L3 L4 Hek).
    - eapply (IH a'); eauto. destruct Hh as (H1 & H2 & H3 & H4 & _). do 4 (split; [assumption|]).
      intros p key seq pl Hp M. destruct Q' as [F _]. rewrite Forall_forall in F. exact (F _ Hp _ _ _ M).
  Qed.
End T.
Print Assumptions C74_like_a_new_device.
Print Assumptions C74_reply_is_the_answer.
Print Assumptions C74_every_run_was_called.
Print Assumptions C74_given_was_sent.
Print Assumptions C74_given_multi_was_sent.
Print Assumptions C74_waits_because_lost_partial.
Print Assumptions C74_every_call_returns_partial.
Print Assumptions C74_no_answer_crosses_sessions.

(** ** C74 Typed calls *)
Section Typed.
  Import CodecModel CodecSpec CodecStdModel TypedSpec.
  Context {Ctx SCtx : Type}.
  Variable std : StdKeys.
  Variable net : Trace value SCtx -> VarHeader -> Payload value -> TxRes.
  Variable can_spawn : Trace value SCtx -> nat -> bool.
  Variable kkind : VarKeyKind.
  Variable spawn_ctxt : Ctx -> Ctx * SCtx.
  Variable d : Dispatcher value Ctx.
  Variable task : nat -> SCtx -> VarHeader -> value -> HProg value unit.
  Variable cfg : Config.
  Variable eps : EndpointMap.
  Variable tin tout : TopicMap.
  Variable ea : list (EpArm value Ctx).
  Variable ta : list (TpArm value Ctx).
  Variable rqty rsty : Key8 -> NamedType.

  (** A value returned to a caller was computed from the caller's argument since the
      caller's client connected. *)
  Theorem C74_value_is_computed :
    dispatcher_for eps tin tout ea ta d ->
    device_ok std eps tout ea -> typed_device std ea task rqty rsty ->
    klen (d_kind _ _ d) <= klen kkind ->
    ~ In (compact (klen kkind) (k8_bytes (error_key std)))
         (map (fun k => compact (klen kkind) (k8_bytes k)) (map ep_resp (em_endpoints eps))) ->
    forall bg a, handlers_ok std tout ea ta task bg -> settled tout a ->
    forall ls a' cl es,
      a_run value Ctx SCtx std net can_spawn kkind spawn_ctxt d payload_bytes task cfg ls (reconnect value Ctx SCtx a) = Some (a', cl, es) ->
      Forall (label_ok eps tin) cl -> (N.of_nat (ClientSpec.typed cl) <= 2 ^ 32)%N ->
      exists tr, did a a' tr /\
      forall r req v res w,
        called rqty cl r req v -> In (r, res) (results es) -> returned rsty req res = HOk _ _ w ->
        worked_out std ea task d tr req (N.of_nat r) v w.
  Proof.
    intros Hdisp Hdev Hty Hkk Herr bg a Hhand Hset ls a' cl es Hrun Hlab Hc.
    pose proof (handlers_left _ _ _ _ _ _ _ Hhand Hset) as Hh. destruct Hset as (C & U & D & T).
    destruct (C74_like_a_new_device std net can_spawn kkind spawn_ctxt d payload_bytes task cfg a C U D ls a' cl es Hrun) as (b & R & tr & _).
    exists (y_trace _ _ _ (a_sys _ _ _ b)). split; [exact tr|].
    intros r req v res w H1 H2 H3. eapply C73_value_is_computed; eauto.
  Qed.
End Typed.
Print Assumptions C74_value_is_computed.
