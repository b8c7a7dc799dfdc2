(** Theorems about the whole system over USB: C71, C72. *)
From Coq Require Import NArith List Bool Arith Lia Permutation.
From Verif Require Import KeyModel HeaderModel KeySpec HeaderSpec MinKeyModel MinKeySpec
  SchemaModel MacroModel PostcardModel DispatchModel DispatchSpec SubModel SubSpec ClientModel ClientSpec
  UsbModel UsbSpec NusbRxModel LogModel.
From Verif Require Import DispatchModel DispatchSpec SystemModel SystemSpec SystemProof SystemThm FlowSpec FlowThm LiveSpec LiveProof LiveThm AsyncModel AsyncSpec AsyncProof AsyncThm
  UsbSysModel UsbSysSpec UsbSysProof UsbSysLive.
From Verif Require CodecModel CodecSpec TypedSpec.
Import ListNotations.

Section T.
  Context {Val Ctx SCtx : Type}.
  Variable std : StdKeys.
  Variable can_spawn : Trace Val SCtx -> nat -> bool.
  Variable kkind : VarKeyKind.
  Variable spawn_ctxt : Ctx -> Ctx * SCtx.
  Variable d : Dispatcher Val Ctx.
  Variable enc : Payload Val -> list N.
  Variable task : nat -> SCtx -> VarHeader -> Val -> HProg Val unit.
  Variable bg : list (HProg Val unit).
  Variable cfg : Config.
  Variable txlen rxlen : nat.
  Variable consumes : bool.
  Variable mps : option nat.
  Variable outcome : nat -> list WRes.
  Hypothesis Hsizes : usb_sizes mps txlen rxlen.

  Notation net := (usb_net Val SCtx enc txlen outcome).
  Notation a_step := (a_step Val Ctx SCtx std net can_spawn kkind spawn_ctxt d enc task cfg).
  Notation a_run := (a_run Val Ctx SCtx std net can_spawn kkind spawn_ctxt d enc task cfg).
  Notation a_sys := (a_sys Val Ctx SCtx).
  Notation a_cur := (a_cur Val Ctx SCtx).
  Notation u_step := (u_step Val Ctx SCtx std can_spawn kkind spawn_ctxt d enc task cfg txlen rxlen consumes mps outcome).
  Notation u_run := (u_run Val Ctx SCtx std can_spawn kkind spawn_ctxt d enc task cfg txlen rxlen consumes mps outcome).

  Variable ctx0 : Ctx.
  Variable ls : list ULabel.
  Variable u : USys Val Ctx SCtx.
  Variable cl : list Label.
  Variable es : list (list Ev).
  Hypothesis Hrun : u_run ls (usys_new Val Ctx SCtx bg ctx0) = Some (u, cl, es).
  Notation tr := (u_trace _ _ _ u).

  (** ** C71 The USB transports are as good as a link *)

  (** Whatever happens over USB, packet by packet (messages interrupted at any packet,
      transfers failing between messages, workers stopping amid a frame, zero-length
      packets too many), could have happened over a link that carries whole frames, and
      looks the same to the user of the client and to the handlers on the device.  The
      link keeps the order in both directions; it cuts no frame short unless the device
      was interrupted while sending one; on the way to the device it loses only frames
      that do not fit the device's buffer; and on the way to the client it loses, if no
      transfer failed, only messages that the device did not send completely. *)
  Theorem C71_usb_is_a_link :
    errors_between_messages ls ->
    exists ls' a, a_run ls' (asys_new Val Ctx SCtx bg ctx0) = Some (a, cl, es) /\
      y_client _ _ _ (a_sys a) = u_client _ _ _ u /\ y_ctx _ _ _ (a_sys a) = u_ctx _ _ _ u /\ y_trace _ _ _ (a_sys a) = tr /\
      y_tasks _ _ _ (a_sys a) = u_tasks _ _ _ u /\ y_serving _ _ _ (a_sys a) = u_serving _ _ _ u /\ a_cur a = u_cur _ _ _ u /\
      up_in_order (system_labels ls') /\ down_in_order (system_labels ls') /\
      (none_interrupted tr -> uncut (system_labels ls')) /\
      (forall b, In b (a_lost a_step loses_up ls' (asys_new Val Ctx SCtx bg ctx0)) -> In b (wire es) /\ ~ fits rxlen (length b)) /\
      (no_transfer_errors ls -> forall b, In b (a_lost a_step loses_down ls' (asys_new Val Ctx SCtx bg ctx0)) -> not_sent enc tr b).
  Proof.
    intros He.
    assert (D : no_transfer_errors ls \/ ~ no_transfer_errors ls).
    { clear. induction ls as [|l tl IH]; [left; intros e; split; intros []|].
      destruct IH as [IH|IH]; [|right; intros H; apply IH; intros e; split; intros X; [apply (proj1 (H e))|apply (proj2 (H e))]; right; exact X].
      destruct l; try (left; intros e'; split; intros [X|X]; try discriminate; [apply (proj1 (IH e') X)|apply (proj2 (IH e') X)]; fail);
        right; intros H; solve [apply (proj1 (H e)); left; reflexivity|apply (proj2 (H e)); left; reflexivity]. }
    destruct D as [D|D].
    - destruct (sim_new std can_spawn kkind spawn_ctxt d enc task bg cfg txlen rxlen consumes mps outcome Hsizes true _ _ _ _ _ Hrun He (fun _ => D))
        as (ls' & a & R & [] & O1 & O2 & C & U & L). exists ls', a. repeat (split; [auto; fail|]). auto.
    - destruct (sim_new std can_spawn kkind spawn_ctxt d enc task bg cfg txlen rxlen consumes mps outcome Hsizes false _ _ _ _ _ Hrun He ltac:(discriminate))
        as (ls' & a & R & [] & O1 & O2 & C & U & L). exists ls', a. repeat (split; [auto; fail|]). intros; exfalso; auto.
  Qed.

  Lemma none_in {A} (l : list A) : (forall x, ~ In x l) -> l = [].
  Proof. destruct l as [|x l]; auto. intros H. destruct (H x). left. reflexivity. Qed.

  (** In particular, it could have happened over a link that loses nothing, if no transfer
      failed, all messages were sent completely and all frames fit the device's buffer. *)
  Theorem C71_usb_is_a_lossless_link :
    no_transfer_errors ls -> frames_fit rxlen es -> all_sent tr ->
    exists ls' a, a_run ls' (asys_new Val Ctx SCtx bg ctx0) = Some (a, cl, es) /\
      y_client _ _ _ (a_sys a) = u_client _ _ _ u /\ y_ctx _ _ _ (a_sys a) = u_ctx _ _ _ u /\ y_trace _ _ _ (a_sys a) = tr /\
      y_tasks _ _ _ (a_sys a) = u_tasks _ _ _ u /\ y_serving _ _ _ (a_sys a) = u_serving _ _ _ u /\ a_cur a = u_cur _ _ _ u /\
      up_in_order (system_labels ls') /\ down_in_order (system_labels ls') /\ lossless (system_labels ls').
  Proof.
    intros H1 H2 H3. destruct C71_usb_is_a_link as (ls' & a & R & E1 & E2 & E3 & E4 & E5 & E6 & O1 & O2 & _ & U & L). { intros e. apply H1. }
    exists ls', a. repeat (split; [auto; fail|]).
    apply (nothing_lost std can_spawn kkind spawn_ctxt d enc task cfg txlen outcome _ _ _ _ _ R); apply none_in; intros b Hb.
    - destruct (U b Hb) as [W F]. apply F. unfold frames_fit in H2. rewrite Forall_forall in H2. auto.
    - destruct (L H1 b Hb) as (w & h & p & r & Hi & Hr & _). apply Hr. eapply H3; eauto.
  Qed.

  Variable eps : EndpointMap.
  Variable tin tout : TopicMap.
  Variable ea : list (EpArm Val Ctx).
  Variable ta : list (TpArm Val Ctx).
  Hypothesis Hdisp : dispatcher_for eps tin tout ea ta d.
  Hypothesis Hdev : device_ok std eps tout ea.
  Hypothesis Hkk : klen (d_kind _ _ d) <= klen kkind.
  Hypothesis Hlab : Forall (label_ok eps tin) cl.

  Section Safe.
  Hypothesis Herrs : errors_between_messages ls.
  Hypothesis Hhand : handlers_ok std tout ea ta task bg.

  (** Hence a reply is the answer to its own request: the whole answer, unless the device
      was interrupted while sending, and then the beginning of it. *)
  Theorem C71_reply_is_the_answer :
    (N.of_nat (typed cl) <= 2 ^ 32)%N ->
    ~ In (compact (klen kkind) (k8_bytes (error_key std)))
         (map (fun k => compact (klen kkind) (k8_bytes k)) (map ep_resp (em_endpoints eps))) ->
    forall r f, In (r, GotReply f) (results es) ->
      exists req resp body p,
        nth_error (issued 0 cl) r = Some (MkFrame (MkHeader (VKey8 req) (Seq4 (N.of_nat r))) body, resp) /\
        (exists missing, enc p = f_body f ++ missing) /\
        (none_interrupted tr -> f_body f = enc p) /\
        answered std ea task d tr req (N.of_nat r) body p.
  Proof.
    intros Hc Hek r f Hr. destruct (C71_usb_is_a_link Herrs) as (ls' & a & R & _ & _ & Et & _ & _ & _ & _ & _ & C & _).
    destruct (C73_reply_is_the_answer std net can_spawn kkind spawn_ctxt d enc task bg cfg _ _ _ _ _ R eps tin tout ea ta Hdisp Hdev Hkk Hlab Hhand Hc Hek r f Hr)
      as (req & resp & body & p & H1 & H2 & H3 & H4). rewrite Et in H4. exists req, resp, body, p.
    split; [exact H1|]. split; [exact H2|]. split; [intros Hn; exact (H3 (C Hn))|exact H4].
  Qed.

  (** Handlers run for the calls of this client only, each call at most once, and in the
      order in which the calls were accepted. *)
  Theorem C71_handlers_run_in_call_order :
    exists calls, Forall2 (run_of ea ta cl) (invocations tr) calls /\ subsequence calls (accepted cl es) /\ NoDup calls.
  Proof.
    destruct (C71_usb_is_a_link Herrs) as (ls' & a & R & _ & _ & Et & _ & _ & _ & O & _).
    destruct (C73_every_run_was_called std net can_spawn kkind spawn_ctxt d enc task bg cfg _ _ _ _ _ R eps tin tout ea ta Hdisp Hkk Hlab Hhand)
      as (calls & F & N & _ & S). rewrite Et in F. exists calls. auto.
  Qed.

  (** What a subscription is given was transmitted under its topic, in that order. *)
  Theorem C71_given_in_order :
    forall k id, subscribed cl es k id ->
      exists ps, subsequence ps (sent_on tr k) /\
        Forall2 (fun f p => (exists missing, enc p = f_body f ++ missing) /\ (none_interrupted tr -> f_body f = enc p)) (given cl es id) ps.
  Proof.
    intros k id Hs. destruct (C71_usb_is_a_link Herrs) as (ls' & a & R & _ & _ & Et & _ & _ & _ & _ & O & C & _).
    destruct (C73_given_was_sent std net can_spawn kkind spawn_ctxt d enc task bg cfg _ _ _ _ _ R eps tin tout ea ta Hdisp Hdev Hkk Hlab Hhand k id Hs)
      as (ps & F & _ & S). rewrite Et in S. exists ps. split; [auto|]. clear S. induction F as [|f p fs ps' (m & H1 & H2) F IH]; constructor; auto.
    split; [exists m; exact H1|]. intros Hn. rewrite H1, (H2 (C Hn)), app_nil_r. reflexivity.
  Qed.
  Theorem C71_given_multi_in_order :
    forall k id, subscribed_multi cl es k id ->
      exists ps, subsequence ps (sent_on tr k) /\
        Forall2 (fun f p => (exists missing, enc p = f_body f ++ missing) /\ (none_interrupted tr -> f_body f = enc p)) (given_multi cl es id) ps.
  Proof.
    intros k id Hs. destruct (C71_usb_is_a_link Herrs) as (ls' & a & R & _ & _ & Et & _ & _ & _ & _ & O & C & _).
    destruct (C73_given_multi_was_sent std net can_spawn kkind spawn_ctxt d enc task bg cfg _ _ _ _ _ R eps tin tout ea ta Hdisp Hdev Hkk Hlab Hhand k id Hs)
      as (ps & F & _ & S). rewrite Et in S. exists ps. split; [auto|]. clear S. induction F as [|f p fs ps' (m & H1 & H2) F IH]; constructor; auto.
    split; [exists m; exact H1|]. intros Hn. rewrite H1, (H2 (C Hn)), app_nil_r. reflexivity.
  Qed.
  End Safe.

  (** ** C72 Calls return over USB *)

  (** Left to itself, the system over USB comes to rest: there is no infinite sequence of
      its own steps. *)
  Theorem C72_own_steps_end :
    forall f : nat -> USys Val Ctx SCtx,
      f 0 = u -> ~ (forall n, exists l ce, u_own_step l = true /\ u_step l (f n) = Some (f (S n), ce)).
  Proof.
    intros f E H. destruct Hsizes as (_ & HB & _).
    refine (u_own_ends std can_spawn kkind spawn_ctxt d enc task cfg txlen rxlen consumes mps outcome HB f _ H). rewrite E.
    exact (run_short std can_spawn kkind spawn_ctxt d enc task cfg txlen rxlen consumes mps outcome HB _ _ _ _ _ Hrun (Forall_nil _)).
  Qed.

  Section Live.
  Hypothesis Hce : cfg_err_key cfg = error_key std.
  Hypothesis Hans : tasks_answer std ea task.
  Hypothesis Hdepth : 0 < cfg_depth cfg.
  Hypothesis Hcount : (N.of_nat (typed cl) <= 2 ^ 32)%N.
  Hypothesis Hsubs : subscriptions_apart kkind std eps cl.
  Hypothesis Herrs : no_transfer_errors ls.
  Hypothesis Hrest : forall l, u_own_step l = true -> u_step l u = None.

  Lemma at_rest_link : exists ls' a, a_run ls' (asys_new Val Ctx SCtx bg ctx0) = Some (a, cl, es) /\
    (forall l, a_own_step l = true -> a_step l a = None) /\ y_trace _ _ _ (a_sys a) = tr /\
    (forall b, In b (a_lost a_step loses_up ls' (asys_new Val Ctx SCtx bg ctx0)) -> In b (wire es) /\ ~ fits rxlen (length b)) /\
    (forall b, In b (a_lost a_step loses_down ls' (asys_new Val Ctx SCtx bg ctx0)) -> not_sent enc tr b) /\
    up_in_order (system_labels ls').
  Proof.
    assert (He : errors_between_messages ls) by (intros e; apply Herrs).
    destruct (sim_new std can_spawn kkind spawn_ctxt d enc task bg cfg txlen rxlen consumes mps outcome Hsizes true _ _ _ _ _ Hrun He (fun _ => Herrs))
      as (ls1 & a1 & R1 & Rl & O1 & _ & _ & U & L). destruct Hsizes as (_ & HB & MB & _).
    destruct (reach_sim std net can_spawn kkind spawn_ctxt d enc task bg cfg _ _ _ _ _ R1) as (_ & _ & _ & _ & Ok & _).
    destruct (u_rest_rest std can_spawn kkind spawn_ctxt d enc task cfg txlen rxlen consumes mps outcome HB MB _ _ _ Rl Ok Hrest)
      as (ls2 & a & R2 & Rest & U2 & L2 & Et & NS & _).
    destruct (a_run_app std can_spawn kkind spawn_ctxt d enc task cfg txlen outcome _ _ _ _ _ _ _ _ _ R1 R2) as [R3 Lo]. rewrite !app_nil_r in R3.
    exists (ls1 ++ ls2), a. split; [exact R3|]. split; [exact Rest|]. split; [exact Et|]. rewrite !Lo, U2, app_nil_r. split; [exact U|]. split.
    - intros b Hb. apply in_app_iff in Hb as [Hb|Hb]; [auto|]. rewrite Forall_forall in L2. auto.
    - intros i Hi. unfold system_labels in Hi. rewrite flat_map_app in Hi. apply in_app_iff in Hi as [Hi|Hi]; [exact (O1 _ Hi)|destruct (NS _ Hi)].
  Qed.

  (** (Partial, like C70: [Hsubs].)  Once it is at rest, if no transfer failed and no
      transmission of the dispatcher failed with a closed link or was interrupted, every
      request that was made and whose future was not dropped has returned, unless the
      frame of that very request did not fit the device's buffer, or an answer to that very
      request was not sent completely. *)
  Theorem C72_waits_because_partial :
    handlers_ok std tout ea ta task bg ->
    (forall h p r, In (EvSend ByDispatcher h p r) tr -> r <> TxErr TxConnectionClosed /\ r <> TxErr TxTimeout) ->
    forall r f resp, nth_error (issued 0 cl) r = Some (f, resp) -> ~ In (LCancel r) cl ->
      (exists res, In (r, res) (results es)) \/
      (exists b, In b (wire es) /\ request_frame f b /\ ~ fits rxlen (length b)) \/
      (exists w key p res, (key = resp \/ key = error_key std) /\
         In (EvSend w (out_header kkind key (Seq4 (N.of_nat r))) p res) tr /\ res <> TxOk).
  Proof.
    intros Hhand Hsent r f resp Hi Hcan. destruct at_rest_link as (ls' & a & R & Rest & Et & U & L & _).
    assert (Hs : forall h p r, In (EvSend ByDispatcher h p r) (y_trace _ _ _ (a_sys a)) -> r <> TxErr TxConnectionClosed /\ r <> TxErr TxTimeout) by (rewrite Et; exact Hsent).
    destruct (C73_waits_because_lost_partial std net can_spawn kkind spawn_ctxt d enc task bg cfg _ _ _ _ _ R eps tin tout ea ta Hdisp Hdev Hkk Hlab Hce Hans Hdepth Hcount Hsubs Hs Rest r f resp Hi Hcan)
      as [X|[(b & Hb & F)|(b & Hb & key & body & Hk & E)]]; auto.
    - right. left. destruct (U b Hb). eauto.
    - right. right. destruct (L b Hb) as (w & h & p & res & Hin & Hr & E'). exists w, key, p, res. split; auto. split; auto.
      assert (Hraw : forall f k, ~ In (LRequestRaw f k) cl). { intros g k Hg. rewrite Forall_forall in Hlab. apply Hlab in Hg. exact Hg. }
      destruct (issued_typed _ _ _ _ _ Hraw Hi) as (Lt & _).
      assert (Hin' := Hin). rewrite <- Et in Hin'. 
      destruct (sent_header std net can_spawn kkind spawn_ctxt d enc task bg cfg _ _ _ _ _ R eps tin tout ea ta Hdisp Hdev Hkk Hlab Hhand _ _ _ _ Hin') as (key' & sq & Eh & Hsq).
      rewrite E in E'. unfold rpc_to_bytes in E'. cbn [f_hdr f_body] in E'.
      assert (T1 : take_from_slice (write_to_vec h ++ enc p) = Done (Some (h, enc p))) by (apply take_written_ok; rewrite Eh; exact Hsq).
      rewrite <- E', take_written_ok in T1. { injection T1 as <- _. exact Hin. }
      cbn [out_header hdr_seq seq_ok]. change (2 ^ 32)%N with 4294967296%N in Hcount. cbn. lia.
  Qed.

  (** In particular, all of them have returned if all requests fit the device's buffer and
      the device sent all its messages completely. *)
  Lemma rest_lossless : frames_fit rxlen es -> all_sent tr -> exists ls' a, a_run ls' (asys_new Val Ctx SCtx bg ctx0) = Some (a, cl, es) /\
    (forall l, a_own_step l = true -> a_step l a = None) /\ y_trace _ _ _ (a_sys a) = tr /\ lossless (system_labels ls').
  Proof.
    intros H2 H3. destruct at_rest_link as (ls' & a & R & Rest & Et & U & L & _). exists ls', a. do 3 (split; [auto; fail|]).
    apply (nothing_lost std can_spawn kkind spawn_ctxt d enc task cfg txlen outcome _ _ _ _ _ R); apply none_in; intros b Hb.
    - destruct (U b Hb) as [W F]. apply F. unfold frames_fit in H2. rewrite Forall_forall in H2. auto.
    - destruct (L b Hb) as (w & h & p & r & Hi & Hr & _). apply Hr. eapply H3; eauto.
  Qed.
  Theorem C72_every_call_returns_partial :
    frames_fit rxlen es -> all_sent tr ->
    forall r, r < length (issued 0 cl) -> ~ In (LCancel r) cl -> exists res, In (r, res) (results es).
  Proof.
    intros H2 H3. assert (Hsent : forall h p r, In (EvSend ByDispatcher h p r) tr -> r <> TxErr TxConnectionClosed /\ r <> TxErr TxTimeout).
    { intros h p r Hi. rewrite (H3 _ _ _ _ Hi). split; discriminate. }
    destruct (rest_lossless H2 H3) as (ls' & a & R & Rest & Et & L).
    assert (Hs : forall h p r, In (EvSend ByDispatcher h p r) (y_trace _ _ _ (a_sys a)) -> r <> TxErr TxConnectionClosed /\ r <> TxErr TxTimeout) by (rewrite Et; exact Hsent).
    exact (C73_every_call_returns_partial std net can_spawn kkind spawn_ctxt d enc task bg cfg _ _ _ _ _ R eps tin tout ea ta Hdisp Hdev Hkk Hlab Hce Hans Hdepth Hcount Hsubs Hs Rest L).
  Qed.

  Theorem C72_every_call_is_answered_partial :
    frames_fit rxlen es -> all_sent tr ->
    handlers_ok std tout ea ta task bg ->
    ~ In (compact (klen kkind) (k8_bytes (error_key std)))
         (map (fun k => compact (klen kkind) (k8_bytes k)) (map ep_resp (em_endpoints eps))) ->
    (forall l, In l cl -> l <> LClose /\ (forall b, l <> LOutFail b) /\ l <> LInFail) ->
    forall r, r < length (issued 0 cl) -> ~ In (LCancel r) cl ->
      exists f, In (r, GotReply f) (results es) \/ In (r, GotError f) (results es).
  Proof.
    intros H2 H3. assert (Hsent : forall h p r, In (EvSend ByDispatcher h p r) tr -> r <> TxErr TxConnectionClosed /\ r <> TxErr TxTimeout).
    { intros h p r Hi. rewrite (H3 _ _ _ _ Hi). split; discriminate. }
    destruct (rest_lossless H2 H3) as (ls' & a & R & Rest & Et & L).
    assert (Hs : forall h p r, In (EvSend ByDispatcher h p r) (y_trace _ _ _ (a_sys a)) -> r <> TxErr TxConnectionClosed /\ r <> TxErr TxTimeout) by (rewrite Et; exact Hsent).
    exact (C73_every_call_is_answered_partial std net can_spawn kkind spawn_ctxt d enc task bg cfg _ _ _ _ _ R eps tin tout ea ta Hdisp Hdev Hkk Hlab Hce Hans Hdepth Hcount Hsubs Hs Rest L).
  Qed.
  End Live.
End T.
Print Assumptions C71_usb_is_a_link.
Print Assumptions C71_usb_is_a_lossless_link.
Print Assumptions C71_reply_is_the_answer.
Print Assumptions C71_handlers_run_in_call_order.
Print Assumptions C71_given_in_order.
Print Assumptions C71_given_multi_in_order.
Print Assumptions C72_own_steps_end.
Print Assumptions C72_waits_because_partial.
Print Assumptions C72_every_call_returns_partial.
Print Assumptions C72_every_call_is_answered_partial.

(** ** C71 Typed calls over USB *)
Section Typed.
  Import CodecModel CodecSpec CodecStdModel TypedSpec.
  Context {Ctx SCtx : Type}.
  Variable std : StdKeys.
  Variable can_spawn : Trace value SCtx -> nat -> bool.
  Variable kkind : VarKeyKind.
  Variable spawn_ctxt : Ctx -> Ctx * SCtx.
  Variable d : Dispatcher value Ctx.
  Variable task : nat -> SCtx -> VarHeader -> value -> HProg value unit.
  Variable bg : list (HProg value unit).
  Variable cfg : Config.
  Variable txlen rxlen : nat.
  Variable consumes : bool.
  Variable mps : option nat.
  Variable outcome : nat -> list WRes.
  Variable eps : EndpointMap.
  Variable tin tout : TopicMap.
  Variable ea : list (EpArm value Ctx).
  Variable ta : list (TpArm value Ctx).
  Variable rqty rsty : Key8 -> NamedType.
  Notation net := (usb_net value SCtx payload_bytes txlen outcome).

  (** Over USB, whatever is interrupted and whichever transfers fail between messages, a
      value returned to a caller is the value that the endpoint's own handler computed
      from the caller's argument. *)
  Theorem C71_value_is_computed :
    usb_sizes mps txlen rxlen ->
    dispatcher_for eps tin tout ea ta d ->
    device_ok std eps tout ea -> handlers_ok std tout ea ta task bg -> typed_device std ea task rqty rsty ->
    klen (d_kind _ _ d) <= klen kkind ->
    ~ In (compact (klen kkind) (k8_bytes (error_key std)))
         (map (fun k => compact (klen kkind) (k8_bytes k)) (map ep_resp (em_endpoints eps))) ->
    forall ctx0 ls u cl es,
      u_run value Ctx SCtx std can_spawn kkind spawn_ctxt d payload_bytes task cfg txlen rxlen consumes mps outcome ls
        (usys_new value Ctx SCtx bg ctx0) = Some (u, cl, es) ->
      errors_between_messages ls -> Forall (label_ok eps tin) cl -> (N.of_nat (ClientSpec.typed cl) <= 2 ^ 32)%N ->
      forall r req v res w,
        called rqty cl r req v -> In (r, res) (results es) -> returned rsty req res = HOk _ _ w ->
        worked_out std ea task d (u_trace _ _ _ u) req (N.of_nat r) v w.
  Proof.
    intros Hsz Hdisp Hdev Hhand Hty Hkk Herr ctx0 ls u cl es Hrun He Hlab Hc r req v res w H1 H2 H3.
    destruct (C71_usb_is_a_link std can_spawn kkind spawn_ctxt d payload_bytes task bg cfg txlen rxlen consumes mps outcome Hsz ctx0 ls u cl es Hrun He)
      as (ls' & a & R & _ & _ & Et & _).
    rewrite <- Et.
    exact (C73_value_is_computed std net can_spawn kkind spawn_ctxt d task bg cfg eps tin tout ea ta rqty rsty Hdisp Hdev Hhand Hty Hkk Herr _ _ _ _ _ R Hlab Hc r req v res w H1 H2 H3).
  Qed.
End Typed.
Print Assumptions C71_value_is_computed.
