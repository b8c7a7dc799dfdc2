(** Theorems about typed calls over the whole system: C66. *)
From Coq Require Import NArith ZArith List Bool Arith Lia.
From Verif Require Import KeyModel HeaderModel KeySpec HeaderSpec MinKeyModel MinKeySpec SchemaModel MacroModel PostcardModel
  DispatchModel DispatchSpec SubModel ClientModel ClientSpec SystemModel SystemSpec SystemProof SystemThm
  CodecModel CodecSpec CodecProof CodecStdModel CodecStdProof CodecThm TypedSpec.
Import ListNotations.

Lemma run_prog_returns {Val SCtx R} net kkind (p : HProg Val R) (tr tr' : Trace Val SCtx) r :
  run_prog Val SCtx net kkind p tr = (r, tr') -> may_return p r.
Proof.
  revert tr tr'. induction p as [x|key seq q k IH]; cbn; intros tr tr' H.
  - injection H as <- _. constructor.
  - eapply mr_later, IH, H.
Qed.

(** A decoded beginning of a message is the whole message. *)
Lemma de_part t v l missing w : typed t v -> ser v = l ++ missing -> from_bytes t l = Some w -> w = v /\ missing = [].
Proof.
  intros Hv E H. unfold from_bytes in H. destruct (de t l) as [[w' r]|] eqn:D; [|discriminate]. injection H as ->.
  pose proof (proj1 de_ext_all t _ _ _ missing D) as X. rewrite <- E in X.
  pose proof (proj1 de_ser_all t v [] Hv) as Y. rewrite app_nil_r, X in Y. injection Y as -> Y.
  apply app_eq_nil in Y as [_ ->]. auto.
Qed.
Lemma error_part e l missing e' : error_ok e -> ser (error_value e) = l ++ missing -> from_bytes_error l = Some e' -> e' = e.
Proof.
  intros He E H. unfold from_bytes_error in H. destruct (from_bytes t_wire_error l) as [w|] eqn:D; [|discriminate].
  destruct (error_typed e He) as [T V]. destruct (de_part _ _ _ _ _ T E D) as [-> _]. congruence.
Qed.
Lemma dispatch_error_ok e : dispatch_error e -> error_ok e.
Proof. destruct e; cbn; tauto. Qed.
Lemma announces_ok m t : announces m t -> totals_ok t.
Proof.
  unfold announces, totals_ok, uint_ok. cbn [bits]. intros (-> & -> & -> & -> & H).
  repeat split; auto; apply N.mod_lt; discriminate.
Qed.

Section T.
  Context {Ctx SCtx : Type}.
  Variable std : StdKeys.
  Variable net : Trace value SCtx -> VarHeader -> Payload value -> TxRes.
  Variable can_spawn : Trace value SCtx -> nat -> bool.
  Variable kkind : VarKeyKind.
  Variable spawn_ctxt : Ctx -> Ctx * SCtx.
  Variable task : nat -> SCtx -> VarHeader -> value -> HProg value unit.
  Variable bg : list (HProg value unit).
  Variable cfg : Config.
  Variable eps : EndpointMap.
  Variable tin tout : TopicMap.
  Variable ea : list (EpArm value Ctx).
  Variable ta : list (TpArm value Ctx).
  Variable d : Dispatcher value Ctx.
  Variable rqty rsty : Key8 -> NamedType.

  Hypothesis Hdisp : dispatcher_for eps tin tout ea ta d.
  Hypothesis Hdev : device_ok std eps tout ea.
  Hypothesis Hhand : handlers_ok std tout ea ta task bg.
  Hypothesis Htyped : typed_device std ea task rqty rsty.
  Hypothesis Hkk : klen (d_kind _ _ d) <= klen kkind.

  Notation sys_run := (sys_run value Ctx SCtx std net can_spawn kkind spawn_ctxt d payload_bytes task cfg).
  Notation sys_new := (sys_new value Ctx SCtx).

  Variable ctx0 : Ctx.
  Variable ls : list SysLabel.
  Variable s : Sys value Ctx SCtx.
  Variable cl : list Label.
  Variable es : list (list Ev).
  Hypothesis Hrun : sys_run ls (sys_new bg ctx0) = Some (s, cl, es).
  Hypothesis Hlab : Forall (label_ok eps tin) cl.
  Hypothesis Hcount : (N.of_nat (ClientSpec.typed cl) <= 2 ^ 32)%N.
  Hypothesis Herr : ~ In (compact (klen kkind) (k8_bytes (error_key std)))
                        (map (fun k => compact (klen kkind) (k8_bytes k)) (map ep_resp (em_endpoints eps))).
  Notation tr := (y_trace _ _ _ s).

  Notation called := (called rqty cl).
  Notation returned := (returned rsty).

  (** The answer to a call, decoded: what the system theorem says of the payload, said
      of the value. *)
  Lemma answer_typed req r v p :
    typed (rqty req) v ->
    answer_of std ea task net kkind d tr req r (ser v) p ->
    exists w, payload_bytes p = ser w /\ typed (rsty req) w /\ computed std ea task net kkind d tr req r v w.
  Proof.
    destruct Htyped as (T1 & T2 & T3 & T4 & T5 & T6 & _). intros Hv H. destruct H.
    - subst req. rewrite T1 in Hv. destruct v; try contradiction. destruct w; try contradiction.
      exists (VUInt W32 n0). rewrite T2. split; [|split; [exact Hv|apply cp_ping; reflexivity]].
      assert (E : from_bytes_u32 (ser (VUInt W32 n0)) = Some n0).
      { pose proof (C63_round_trip t_u32 (VUInt W32 n0) [] Hv) as X. rewrite app_nil_r in X.
        unfold from_bytes, t_u32, de, de_dmt, de_prim in X. unfold from_bytes_u32.
        destruct (take_varint W32 (ser (VUInt W32 n0))) as [[m rr]|] eqn:Q; [|discriminate]. cbn in X. injection X as ->.
        unfold take_u32. cbn in Q |- *. rewrite Q. reflexivity. }
      rewrite E in H0. injection H0 as <-. reflexivity.
    - subst req. exists (totals_value t). rewrite T3. split; [reflexivity|]. split; [|eapply cp_schemas; eauto].
      apply totals_typed. eapply announces_ok; eauto.
    - subst req. rewrite T4 in H2 by auto. rewrite <- (app_nil_r (ser v)), C63_round_trip in H2 by auto. injection H2 as <-.
      exists reply. split; [reflexivity|]. split; [|eapply cp_handler; eauto].
      eapply T5; eauto. eapply run_prog_returns; eauto.
    - subst req. rewrite T4 in H2 by auto. rewrite <- (app_nil_r (ser v)), C63_round_trip in H2 by auto. injection H2 as <-.
      destruct (T6 _ _ _ _ _ _ H H1 Hv H5) as (w & -> & Hw). exists w. split; [reflexivity|]. split; [exact Hw|eapply cp_task; eauto].
  Qed.

  Lemma refused_typed req r v p :
    typed (rqty req) v ->
    refused std ea task net kkind d can_spawn spawn_ctxt tr req r (ser v) p ->
    exists e, p = PError e /\ error_ok e.
  Proof.
    destruct Htyped as (_ & _ & _ & T4 & _ & _ & T7). intros Hv H. destruct H.
    - exists er. split; auto. apply dispatch_error_ok. auto.
    - subst req. rewrite T4 in H2 by auto. rewrite <- (app_nil_r (ser v)), C63_round_trip in H2 by auto. injection H2 as <-. eapply T7; eauto.
  Qed.

  (** ** C66 A typed call returns the value its own handler computed *)

  (** Whatever the links lose, reorder or cut short: a value returned to the caller is
      the value the endpoint's own handler computed from the caller's argument. *)
  Theorem C66_value_is_computed :
    forall r req v res w,
      called r req v -> In (r, res) (results es) -> returned req res = HOk _ _ w ->
      computed std ea task net kkind d tr req (N.of_nat r) v w.
  Proof.
    intros r req v res w (resp & Hi & Hv) Hr Hret. unfold returned, host_result in Hret.
    destruct res as [f|f| |]; try discriminate; [|destruct (from_bytes_error _); discriminate].
    destruct (from_bytes (rsty req) (f_body f)) as [w'|] eqn:D; [|discriminate]. injection Hret as ->.
    destruct (C49_reply_is_the_answer std net can_spawn kkind spawn_ctxt payload_bytes task bg cfg eps tin tout ea ta d Hdisp Hdev Hhand Hkk
      _ _ _ _ _ Hrun Hlab Hcount Herr _ _ Hr) as (req0 & resp0 & body0 & p & Hi0 & (missing & Hm) & _ & An).
    rewrite Hi in Hi0. injection Hi0 as <- <- <-.
    destruct (answer_typed _ _ _ _ Hv An) as (w0 & Ep & Hw0 & Cp). rewrite Ep in Hm.
    destruct (de_part _ _ _ _ _ Hw0 Hm D) as [-> _]. exact Cp.
  Qed.

  (** Unless the link cut the reply short, it can always be decoded. *)
  Theorem C66_reply_decodes :
    forall r req v f,
      uncut ls -> called r req v -> In (r, GotReply f) (results es) ->
      exists w, returned req (GotReply f) = HOk _ _ w.
  Proof.
    intros r req v f U (resp & Hi & Hv) Hr.
    destruct (C49_reply_is_the_answer std net can_spawn kkind spawn_ctxt payload_bytes task bg cfg eps tin tout ea ta d Hdisp Hdev Hhand Hkk
      _ _ _ _ _ Hrun Hlab Hcount Herr _ _ Hr) as (req0 & resp0 & body0 & p & Hi0 & _ & Hb & An).
    rewrite Hi in Hi0. injection Hi0 as <- <- <-.
    destruct (answer_typed _ _ _ _ Hv An) as (w0 & Ep & Hw0 & _). exists w0. unfold returned, host_result.
    rewrite (Hb U), Ep, <- (app_nil_r (ser w0)), C63_round_trip; auto.
  Qed.

  (** A wire error returned to the caller is the error with which the server refused
      this very call, and unless cut short it can be decoded (with the side conditions
      of C51). *)
  Hypothesis Herr_topics : ~ In (compact (klen kkind) (k8_bytes (error_key std)))
                               (map (fun k => compact (klen kkind) (k8_bytes k)) (map snd (tm_topics tout))).
  Hypothesis Hce : cfg_err_key cfg = error_key std.
  Hypothesis Hpub : forall g, In g (published cl) -> exists a, In a ta /\ hdr_key (f_hdr g) = VKey8 (ta_key _ _ a).

  Theorem C66_error_is_the_refusal_partial :
    forall r req v res e,
      called r req v -> In (r, res) (results es) -> returned req res = HWire _ _ e ->
      refused std ea task net kkind d can_spawn spawn_ctxt tr req (N.of_nat r) (ser v) (PError e).
  Proof.
    intros r req v res e (resp & Hi & Hv) Hr Hret. unfold returned, host_result in Hret.
    destruct res as [f|f| |]; try discriminate; [destruct (from_bytes _ _); discriminate|].
    destruct (from_bytes_error (f_body f)) as [e'|] eqn:D; [|discriminate]. injection Hret as ->.
    destruct (C51_error_is_about_this_request_partial std net can_spawn kkind spawn_ctxt payload_bytes task bg cfg eps tin tout ea ta d Hdisp Hdev Hhand Hkk
      _ _ _ _ _ Hrun Hlab Hcount Herr Herr_topics Hce Hpub _ _ Hr) as (req0 & resp0 & body0 & p & Hi0 & (missing & Hm) & _ & Rf).
    rewrite Hi in Hi0. injection Hi0 as <- <- <-.
    destruct (refused_typed _ _ _ _ Hv Rf) as (e0 & -> & Ho). rewrite (error_part _ _ _ _ Ho Hm D). exact Rf.
  Qed.

  (** No completed call fails to decode, and none is refused by the client itself, if
      the links cut nothing: the caller sees the handler's value, the server's error, or
      that the connection was closed. *)
  Theorem C66_value_error_or_closed_partial :
    forall r req v res,
      uncut ls -> called r req v -> In (r, res) (results es) ->
      (exists w, returned req res = HOk _ _ w) \/ (exists e, returned req res = HWire _ _ e) \/ returned req res = HClosed _ _.
  Proof.
    intros r req v res U Hc Hr. destruct res as [f|f| |].
    - left. eapply C66_reply_decodes; eauto.
    - right; left. destruct Hc as (resp & Hi & Hv).
      destruct (C51_error_is_about_this_request_partial std net can_spawn kkind spawn_ctxt payload_bytes task bg cfg eps tin tout ea ta d Hdisp Hdev Hhand Hkk
        _ _ _ _ _ Hrun Hlab Hcount Herr Herr_topics Hce Hpub _ _ Hr) as (req0 & resp0 & body0 & p & Hi0 & _ & Hb & Rf).
      rewrite Hi in Hi0. injection Hi0 as <- <- <-.
      destruct (refused_typed _ _ _ _ Hv Rf) as (e0 & -> & Ho). exists e0. unfold returned, host_result.
      rewrite (Hb U). unfold payload_bytes. rewrite <- (app_nil_r (ser (error_value e0))). rewrite (proj1 C65_standard_round_trip); auto.
    - exfalso. eapply C50_requests_can_be_issued_partial; eauto.
    - right; right. reflexivity.
  Qed.

  (** Even over links that cut frames, no call is told that the response was of the
      wrong kind: what was cut short is reported as not decodable, or decoded. *)
  Theorem C66_never_bad_response_partial :
    forall r req res, In (r, res) (results es) -> returned req res <> HBadResponse _ _.
  Proof.
    intros r req res Hr E. destruct res as [f|f| |]; cbn in E; try discriminate.
    - destruct (from_bytes (rsty req) (f_body f)); discriminate.
    - destruct (from_bytes_error (f_body f)); discriminate.
    - eapply C50_requests_can_be_issued_partial; eauto.
  Qed.
End T.
Print Assumptions C66_value_is_computed.
Print Assumptions C66_reply_decodes.
Print Assumptions C66_error_is_the_refusal_partial.
Print Assumptions C66_value_error_or_closed_partial.
Print Assumptions C66_never_bad_response_partial.
