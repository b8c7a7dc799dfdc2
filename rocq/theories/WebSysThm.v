(** Theorems about the whole system over WebUSB: C89. *)
From Coq Require Import NArith List Bool Arith Lia.
From Verif Require Import KeyModel HeaderModel KeySpec HeaderSpec MinKeyModel MinKeySpec
  SchemaModel MacroModel PostcardModel DispatchModel DispatchSpec SubModel SubSpec ClientModel ClientSpec
  UsbModel UsbSpec NusbRxModel LogModel.
From Verif Require Import DispatchModel DispatchSpec SystemModel SystemSpec SystemProof SystemThm FlowSpec FlowThm LiveSpec LiveProof LiveThm AsyncModel AsyncSpec AsyncProof AsyncThm
  UsbSysModel UsbSysSpec UsbSysProof UsbSysLive UsbSysThm WebUsbModel WebSysModel WebSysSpec WebSysProof WebSysLive.
From Verif Require CodecModel CodecSpec TypedSpec.
Import ListNotations.

Section T.
  Context {Val Ctx SCtx : Type}.
  Variable std : StdKeys.
  Variable can_spawn : Trace Val SCtx -> nat -> bool.
  Variable kkind : VarKeyKind.
  Variable spawn_ctxt : Ctx -> Ctx * SCtx.
  Variable d : Dispatcher Val Ctx.
  Variable enc : Payload Val -> list N.
  Variable task : nat -> SCtx -> VarHeader -> Val -> HProg Val unit.
  Variable bg : list (HProg Val unit).
  Variable cfg : Config.
  Variable txlen rxlen : nat.
  Variable consumes : bool.
  Variable max : nat.
  Variable outcome : nat -> list WRes.
  Hypothesis Hsizes : web_sizes txlen rxlen.

  Notation net := (usb_net Val SCtx enc txlen outcome).
  Notation u_step := (u_step Val Ctx SCtx std can_spawn kkind spawn_ctxt d enc task cfg txlen rxlen consumes (Some 64) outcome).
  Notation u_run := (u_run Val Ctx SCtx std can_spawn kkind spawn_ctxt d enc task cfg txlen rxlen consumes (Some 64) outcome).
  Notation w_step := (w_step Val Ctx SCtx std can_spawn kkind spawn_ctxt d enc task cfg txlen rxlen consumes max outcome).
  Notation w_run := (w_run Val Ctx SCtx std can_spawn kkind spawn_ctxt d enc task cfg txlen rxlen consumes max outcome).
  Notation w_sys := (w_sys Val Ctx SCtx).

  Variable ctx0 : Ctx.
  Variable ls : list WLabel.
  Variable w : WSys Val Ctx SCtx.
  Variable cl : list Label.
  Variable es : list (list Ev).
  Hypothesis Hrun : w_run ls (wsys_new Val Ctx SCtx bg ctx0) = Some (w, cl, es).
  Notation tr := (u_trace _ _ _ (w_sys w)).

  (** Left to itself, the system over WebUSB comes to rest, whatever the lengths of
      frames and messages. *)
  Theorem C89_own_steps_end :
    forall f : nat -> WSys Val Ctx SCtx,
      f 0 = w -> ~ (forall n, exists l ce, w_own_step l = true /\ w_step l (f n) = Some (f (S n), ce)).
  Proof.
    intros f E H. destruct Hsizes as (HB & _).
    refine (w_own_ends std can_spawn kkind spawn_ctxt d enc task cfg txlen rxlen consumes max outcome HB f _ H). rewrite E.
    exact (w_run_short std can_spawn kkind spawn_ctxt d enc task cfg txlen rxlen consumes max outcome HB _ _ _ _ _ Hrun (Forall_nil _)).
  Qed.

  (** The rest is about frames and messages of other lengths than those that go wrong
      (C89_whole_packets_refuted, C89_babble_refuted). *)
  Hypothesis Hframes : no_whole_packets es.
  Hypothesis Hmsgs : messages_below enc txlen (Nat.min max 1024) tr.

  Lemma usb_sizes_64 : usb_sizes (Some 64) txlen rxlen.
  Proof. destruct Hsizes as (H1 & H2 & H3). repeat split; auto. Qed.

  (** Then whatever happens over WebUSB could have happened over nusb, with transfers
      failing between messages only, and looks the same to the user of the client and to
      the handlers on the device. *)
  Theorem C89_as_over_nusb_partial :
    exists us u, u_run us (usys_new Val Ctx SCtx bg ctx0) = Some (u, cl, es) /\
      u_client _ _ _ u = u_client _ _ _ (w_sys w) /\ u_trace _ _ _ u = tr /\ u_ctx _ _ _ u = u_ctx _ _ _ (w_sys w) /\
      u_tasks _ _ _ u = u_tasks _ _ _ (w_sys w) /\ u_serving _ _ _ u = u_serving _ _ _ (w_sys w) /\
      errors_between_messages us /\ (no_failed_transfer ls -> no_transfer_errors us) /\ u_cur _ _ _ u = u_cur _ _ _ (w_sys w).
  Proof.
    destruct (wsim_run std can_spawn kkind spawn_ctxt d enc task cfg txlen rxlen consumes max outcome (Nat.min max 1024) ls
      (Nat.le_min_l _ _) (Nat.le_min_r _ _) _ _ _ _ _ (wrel_new enc bg txlen outcome (Nat.min max 1024) ctx0) Hrun Hframes Hmsgs)
      as (us & u & R & W & A & B).
    exists us, u. split; [exact R|]. destruct W as (ins & comps & reqs & errs & -> & _). cbn [plant u_client u_trace u_ctx u_tasks u_serving u_cur]. auto 10.
  Qed.

  (** And once there is nothing left to do over WebUSB, it could be so over nusb. *)
  Theorem C89_at_rest_as_over_nusb_partial :
    (forall l, w_own_step l = true -> w_step l w = None) ->
    exists us u, u_run us (usys_new Val Ctx SCtx bg ctx0) = Some (u, cl, es) /\ u_trace _ _ _ u = tr /\
      (no_failed_transfer ls -> no_transfer_errors us) /\
      (forall l, u_own_step l = true -> u_step l u = None).
  Proof.
    intros Hrest.
    destruct (wsim_run std can_spawn kkind spawn_ctxt d enc task cfg txlen rxlen consumes max outcome (Nat.min max 1024) ls
      (Nat.le_min_l _ _) (Nat.le_min_r _ _) _ _ _ _ _ (wrel_new enc bg txlen outcome (Nat.min max 1024) ctx0) Hrun Hframes Hmsgs)
      as (us & u & R & W & A & B).
    destruct (w_rest std can_spawn kkind spawn_ctxt d enc task cfg txlen rxlen consumes max outcome _ _ _ W Hrest)
      as (us2 & u2 & R2 & N2 & Rest & ins & acc & comps & reqs & errs & ->).
    pose proof (u_run_app std can_spawn kkind spawn_ctxt d enc task cfg txlen rxlen consumes outcome _ _ _ _ _ _ _ _ _ R R2) as R3. rewrite !app_nil_r in R3.
    eexists _, _. split; [exact R3|]. split; [reflexivity|]. split; [|exact Rest].
    intros H. apply no_errors_app; auto.
  Qed.

  Variable eps : EndpointMap.
  Variable tin tout : TopicMap.
  Variable ea : list (EpArm Val Ctx).
  Variable ta : list (TpArm Val Ctx).
  Hypothesis Hdisp : dispatcher_for eps tin tout ea ta d.
  Hypothesis Hdev : device_ok std eps tout ea.
  Hypothesis Hkk : klen (d_kind _ _ d) <= klen kkind.
  Hypothesis Hlab : Forall (label_ok eps tin) cl.

  Section Safe.
  Hypothesis Hhand : handlers_ok std tout ea ta task bg.

  (** Hence a reply is the answer to its own request (the beginning of it, if the device
      was interrupted while sending), whatever transfers fail, and amid whatever
      message. *)
  Theorem C89_reply_is_the_answer_partial :
    (N.of_nat (typed cl) <= 2 ^ 32)%N ->
    ~ In (compact (klen kkind) (k8_bytes (error_key std)))
         (map (fun k => compact (klen kkind) (k8_bytes k)) (map ep_resp (em_endpoints eps))) ->
    forall r f, In (r, GotReply f) (results es) ->
      exists req resp body p,
        nth_error (issued 0 cl) r = Some (MkFrame (MkHeader (VKey8 req) (Seq4 (N.of_nat r))) body, resp) /\
        (exists missing, enc p = f_body f ++ missing) /\
        (none_interrupted tr -> f_body f = enc p) /\
        answered std ea task d tr req (N.of_nat r) body p.
  Proof.
    intros Hc Hek r f Hr. destruct C89_as_over_nusb_partial as (us & u & R & _ & Et & _ & _ & _ & A & _). rewrite <- Et.
    exact (C71_reply_is_the_answer std can_spawn kkind spawn_ctxt d enc task bg cfg txlen rxlen consumes (Some 64) outcome usb_sizes_64
             ctx0 us u cl es R eps tin tout ea ta Hdisp Hdev Hkk Hlab A Hhand Hc Hek r f Hr).
  Qed.

  (** Handlers run at most once per call, in call order. *)
  Theorem C89_handlers_run_in_call_order_partial :
    exists calls, Forall2 (run_of ea ta cl) (invocations tr) calls /\ subsequence calls (accepted cl es) /\ NoDup calls.
  Proof.
    destruct C89_as_over_nusb_partial as (us & u & R & _ & Et & _ & _ & _ & A & _). rewrite <- Et.
    exact (C71_handlers_run_in_call_order std can_spawn kkind spawn_ctxt d enc task bg cfg txlen rxlen consumes (Some 64) outcome usb_sizes_64
             ctx0 us u cl es R eps tin tout ea ta Hdisp Hkk Hlab A Hhand).
  Qed.

  (** What a subscription is given was transmitted under its topic, in that order. *)
  Theorem C89_given_in_order_partial :
    forall k id, subscribed cl es k id ->
      exists ps, subsequence ps (sent_on tr k) /\
        Forall2 (fun f p => (exists missing, enc p = f_body f ++ missing) /\ (none_interrupted tr -> f_body f = enc p)) (given cl es id) ps.
  Proof.
    intros k id Hs. destruct C89_as_over_nusb_partial as (us & u & R & _ & Et & _ & _ & _ & A & _). rewrite <- Et.
    exact (C71_given_in_order std can_spawn kkind spawn_ctxt d enc task bg cfg txlen rxlen consumes (Some 64) outcome usb_sizes_64
             ctx0 us u cl es R eps tin tout ea ta Hdisp Hdev Hkk Hlab A Hhand k id Hs).
  Qed.
  End Safe.

  Section Live.
  Hypothesis Hce : cfg_err_key cfg = error_key std.
  Hypothesis Hans : tasks_answer std ea task.
  Hypothesis Hdepth : 0 < cfg_depth cfg.
  Hypothesis Hcount : (N.of_nat (typed cl) <= 2 ^ 32)%N.
  Hypothesis Hsubs : subscriptions_apart kkind std eps cl.
  Hypothesis Herrs : no_failed_transfer ls.
  Hypothesis Hrest : forall l, w_own_step l = true -> w_step l w = None.

  (** Once it is at rest, if no transfer failed, every request fit the device's buffer and
      all that the device sent went out, every call has returned. *)
  Theorem C89_every_call_returns_partial :
    frames_fit rxlen es -> all_sent tr ->
    forall r, r < length (issued 0 cl) -> ~ In (LCancel r) cl -> exists res, In (r, res) (results es).
  Proof.
    intros H2 H3. destruct (C89_at_rest_as_over_nusb_partial Hrest) as (us & u & R & Et & N & Rest). rewrite <- Et in H3.
    exact (C72_every_call_returns_partial std can_spawn kkind spawn_ctxt d enc task bg cfg txlen rxlen consumes (Some 64) outcome usb_sizes_64
             ctx0 us u cl es R eps tin tout ea ta Hdisp Hdev Hkk Hlab Hce Hans Hdepth Hcount Hsubs (N Herrs) Rest H2 H3).
  Qed.

  (** With an answer from the device, if the client was not closed and no worker failed. *)
  Theorem C89_every_call_is_answered_partial :
    frames_fit rxlen es -> all_sent tr ->
    handlers_ok std tout ea ta task bg ->
    ~ In (compact (klen kkind) (k8_bytes (error_key std)))
         (map (fun k => compact (klen kkind) (k8_bytes k)) (map ep_resp (em_endpoints eps))) ->
    (forall l, In l cl -> l <> LClose /\ (forall b, l <> LOutFail b) /\ l <> LInFail) ->
    forall r, r < length (issued 0 cl) -> ~ In (LCancel r) cl ->
      exists f, In (r, GotReply f) (results es) \/ In (r, GotError f) (results es).
  Proof.
    intros H2 H3. destruct (C89_at_rest_as_over_nusb_partial Hrest) as (us & u & R & Et & N & Rest). rewrite <- Et in H3.
    exact (C72_every_call_is_answered_partial std can_spawn kkind spawn_ctxt d enc task bg cfg txlen rxlen consumes (Some 64) outcome usb_sizes_64
             ctx0 us u cl es R eps tin tout ea ta Hdisp Hdev Hkk Hlab Hce Hans Hdepth Hcount Hsubs (N Herrs) Rest H2 H3).
  Qed.

  (** If transmissions are interrupted or frames too long, a call that has not returned has
      itself to blame. *)
  Theorem C89_waits_because_partial :
    handlers_ok std tout ea ta task bg ->
    (forall h p r, In (EvSend ByDispatcher h p r) tr -> r <> TxErr TxConnectionClosed /\ r <> TxErr TxTimeout) ->
    forall r f resp, nth_error (issued 0 cl) r = Some (f, resp) -> ~ In (LCancel r) cl ->
      (exists res, In (r, res) (results es)) \/
      (exists b, In b (wire es) /\ request_frame f b /\ ~ fits rxlen (length b)) \/
      (exists w key p res, (key = resp \/ key = error_key std) /\
         In (EvSend w (out_header kkind key (Seq4 (N.of_nat r))) p res) tr /\ res <> TxOk).
  Proof.
    destruct (C89_at_rest_as_over_nusb_partial Hrest) as (us & u & R & Et & N & Rest). rewrite <- Et.
    exact (C72_waits_because_partial std can_spawn kkind spawn_ctxt d enc task bg cfg txlen rxlen consumes (Some 64) outcome usb_sizes_64
             ctx0 us u cl es R eps tin tout ea ta Hdisp Hdev Hkk Hlab Hce Hans Hdepth Hcount Hsubs (N Herrs) Rest).
  Qed.
  End Live.
End T.
Print Assumptions C89_own_steps_end.
Print Assumptions C89_as_over_nusb_partial.
Print Assumptions C89_at_rest_as_over_nusb_partial.
Print Assumptions C89_reply_is_the_answer_partial.
Print Assumptions C89_handlers_run_in_call_order_partial.
Print Assumptions C89_given_in_order_partial.
Print Assumptions C89_every_call_returns_partial.
Print Assumptions C89_every_call_is_answered_partial.
Print Assumptions C89_waits_because_partial.
