(** Theorems about the server await by await: C73. *)
From Coq Require Import NArith List Bool Arith Lia Permutation.
From Verif Require Import KeyModel HeaderModel KeySpec HeaderSpec MinKeyModel MinKeySpec
  SchemaModel MacroModel PostcardModel DispatchModel DispatchSpec SubModel SubSpec ClientModel ClientSpec UsbSpec.
From Verif Require Import DispatchModel DispatchSpec SystemModel SystemSpec SystemProof SystemThm FlowSpec FlowProof FlowThm LiveSpec LiveProof LiveThm
  AsyncModel AsyncSpec AsyncProof.
From Verif Require CodecModel CodecSpec TypedSpec TypedThm.
Import ListNotations.

Lemma forall2_from {A B} (R : A -> B -> Prop) l1 l2 y : Forall2 R l1 l2 -> In y l2 -> exists x, In x l1 /\ R x y.
Proof. intros F. induction F as [|u v l1 l2 H F IH]; [intros []|]. intros [->|Hi]; [exists u; split; [left|]; auto|]. destruct (IH Hi) as (z & Hz & Hr). exists z. split; [right|]; auto. Qed.
Lemma like_uncut ls ls' : Forall2 like ls ls' -> uncut ls -> uncut ls'.
Proof. intros F H i n Hi. destruct (forall2_from _ _ _ _ F Hi) as (x & Hx & L). inversion L; subst; eapply H; eauto. Qed.
Lemma like_up_in_order ls ls' : Forall2 like ls ls' -> up_in_order ls -> up_in_order ls'.
Proof. intros F H i Hi. destruct (forall2_from _ _ _ _ F Hi) as (x & Hx & L). inversion L; subst; eapply H; eauto. Qed.
Lemma like_lossless ls ls' : Forall2 like ls ls' -> lossless ls -> lossless ls'.
Proof. intros F H l Hi. destruct (forall2_from _ _ _ _ F Hi) as (x & Hx & L). specialize (H _ Hx). inversion L; subst; auto. Qed.

Lemma lossless_a_lost {Val Ctx SCtx} (stepping : ALabel -> ASys Val Ctx SCtx -> option (ASys Val Ctx SCtx)) ls : forall a, lossless (system_labels ls) ->
  a_lost stepping loses_up ls a = [] /\ a_lost stepping loses_down ls a = [].
Proof.
  induction ls as [|l ls IH]; intros a H; cbn [a_lost]; auto.
  assert ((match l with ASystem l => loses_up l (a_sys _ _ _ a) | AResume => [] end) = [] /\ (match l with ASystem l => loses_down l (a_sys _ _ _ a) | AResume => [] end) = []) as [-> ->].
  { destruct l as [l|]; auto. pose proof (H l (or_introl eq_refl)) as X. destruct l; auto; destruct X. }
  destruct (stepping l a); auto. apply IH. intros x Hx. apply H. unfold system_labels. cbn [flat_map]. apply in_app_iff. auto.
Qed.

Lemma starts_invocations {Val SCtx} (tr : Trace Val SCtx) : invocations tr = invocations (starts tr).
Proof. unfold invocations, starts. induction tr as [|[] tr IH]; cbn; auto; rewrite IH; reflexivity. Qed.
Lemma starts_in {Val SCtx} (tr : Trace Val SCtx) e : match e with EvSend _ _ _ _ => False | _ => True end -> In e (starts tr) -> In e tr.
Proof. intros _ H. apply filter_In in H. tauto. Qed.
Lemma in_starts {Val SCtx} (tr : Trace Val SCtx) e : match e with EvSend _ _ _ _ => False | _ => True end -> In e tr -> In e (starts tr).
Proof. intros He H. apply filter_In. split; auto. destruct e; tauto. Qed.

Section T.
  Context {Val Ctx SCtx : Type}.
  Variable std : StdKeys.
  Variable net : Trace Val SCtx -> VarHeader -> Payload Val -> TxRes.
  Variable can_spawn : Trace Val SCtx -> nat -> bool.
  Variable kkind : VarKeyKind.
  Variable spawn_ctxt : Ctx -> Ctx * SCtx.
  Variable d : Dispatcher Val Ctx.
  Variable enc : Payload Val -> list N.
  Variable task : nat -> SCtx -> VarHeader -> Val -> HProg Val unit.
  Variable bg : list (HProg Val unit).
  Variable cfg : Config.

  Notation sys_run n c := (sys_run Val Ctx SCtx std n c kkind spawn_ctxt d enc task cfg).
  Notation sys_step n c := (sys_step Val Ctx SCtx std n c kkind spawn_ctxt d enc task cfg).
  Notation a_step := (a_step Val Ctx SCtx std net can_spawn kkind spawn_ctxt d enc task cfg).
  Notation a_run := (a_run Val Ctx SCtx std net can_spawn kkind spawn_ctxt d enc task cfg).
  Notation a_sys := (a_sys Val Ctx SCtx).
  Notation a_cur := (a_cur Val Ctx SCtx).

  (** ** C73 Waiting handlers *)

  (** The dispatcher of AsyncModel.v, not interrupted, is that of DispatchModel.v. *)
  Theorem C73_dispatcher :
    forall ctx hdr body tr,
      sp_exec Val SCtx net can_spawn (sp_handle Val Ctx SCtx std kkind spawn_ctxt d ctx hdr body) tr =
      handle Val Ctx SCtx std net can_spawn kkind spawn_ctxt d ctx hdr body tr.
  Proof. intros. apply exec_handle. Qed.

  Variable ctx0 : Ctx.
  Variable ls : list ALabel.
  Variable a : ASys Val Ctx SCtx.
  Variable cl : list Label.
  Variable es : list (list Ev).
  Hypothesis Hrun : a_run ls (asys_new Val Ctx SCtx bg ctx0) = Some (a, cl, es).
  Notation tr := (y_trace _ _ _ (a_sys a)).

  Lemma reach_sim : exists ls' s, (forall os qs, sys_run (net_of (outcomes (y_trace _ _ _ s) ++ os)) (can_of (spawns (y_trace _ _ _ s) ++ qs)) ls' (sys_new _ _ _ bg ctx0) = Some (s, cl, es)) /\
    ARel enc a s [] /\ a_ok a /\ Forall2 like (system_labels ls) ls' /\
    forall os qs, lost_up (sys_step (net_of (outcomes (y_trace _ _ _ s) ++ os)) (can_of (spawns (y_trace _ _ _ s) ++ qs))) ls' (sys_new _ _ _ bg ctx0) = a_lost a_step loses_up ls (asys_new _ _ _ bg ctx0) /\
      lost_down (sys_step (net_of (outcomes (y_trace _ _ _ s) ++ os)) (can_of (spawns (y_trace _ _ _ s) ++ qs))) ls' (sys_new _ _ _ bg ctx0) = a_lost a_step loses_down ls (asys_new _ _ _ bg ctx0).
  Proof.
    destruct (sim std kkind spawn_ctxt d enc task cfg net can_spawn _ _ _ _ _ Hrun Logic.I) as (rs & G).
    destruct (G (sys_new _ _ _ bg ctx0)) as (ls' & s & H1 & H2 & H3 & H4 & _ & H5). { split; cbn; auto. }
    exists ls', s. do 4 (split; [auto; fail|]). exact H5.
  Qed.

  (** Dispatching frames await by await, with spawned tasks sending meanwhile, looks to
      the client and to the handlers like dispatching each frame at once: for some
      network and executor (that give the same results, in a different order), the
      system of SystemModel.v has a history in which the client does and sees the same,
      the same handlers and tasks are started in the same order, and the same frames are
      transmitted, up to their order and those that the server has not yet come to
      transmit. *)
  Theorem C73_as_if_at_once :
    exists net' can_spawn' ls' s more,
      sys_run net' can_spawn' ls' (sys_new Val Ctx SCtx bg ctx0) = Some (s, cl, es) /\
      y_client _ _ _ s = y_client _ _ _ (a_sys a) /\ y_up _ _ _ s = y_up _ _ _ (a_sys a) /\ y_tasks _ _ _ s = y_tasks _ _ _ (a_sys a) /\
      starts (y_trace _ _ _ s) = starts tr /\ Permutation (y_trace _ _ _ s) (tr ++ more) /\
      (a_cur a = None -> more = [] /\ y_ctx _ _ _ s = y_ctx _ _ _ (a_sys a) /\ y_serving _ _ _ s = y_serving _ _ _ (a_sys a) /\
         Permutation (y_down _ _ _ s) (y_down _ _ _ (a_sys a))) /\
      (uncut (system_labels ls) -> uncut ls') /\ (up_in_order (system_labels ls) -> up_in_order ls') /\
      (lossless (system_labels ls) -> lossless ls').
  Proof.
    destruct reach_sim as (ls' & s & R & [Rc Ru Rt Rx Rv Rd Rr Rs] & _ & L & _).
    exists (net_of (outcomes (y_trace _ _ _ s) ++ [])), (can_of (spawns (y_trace _ _ _ s) ++ [])), ls', s, (snd (ahead a [])).
    split; [apply R|]. split; auto. split; auto. split; auto. split; auto. split; auto. split.
    - intros C. unfold ahead in Rx, Rv, Rd |- *. rewrite C in Rx, Rv, Rd |- *. cbn in Rx, Rv, Rd |- *. rewrite app_nil_r in Rd. auto.
    - split; [apply (like_uncut _ _ L)|]. split; [apply (like_up_in_order _ _ L)|apply (like_lossless _ _ L)].
  Qed.

  (** Left to itself, the system comes to rest. *)
  Theorem C73_own_steps_end :
    forall f : nat -> ASys Val Ctx SCtx,
      f 0 = a -> ~ (forall n, exists l, a_own_step l = true /\ a_step l (f n) = Some (f (S n))).
  Proof.
    intros f E H. destruct reach_sim as (_ & _ & _ & _ & Ok & _).
    assert (O : forall n, a_ok (f n)). { induction n; [now rewrite E|]. destruct (H n) as (l & _ & Hs). eapply a_step_ok; eauto. }
    pose proof (a_own_acc std kkind spawn_ctxt d enc task cfg net can_spawn (f 0)) as A.
    enough (G : forall s, Acc (a_by_itself std kkind spawn_ctxt d enc task cfg net can_spawn) s -> forall n, f n <> s) by exact (G _ A 0 eq_refl).
    clear A. intros s A. induction A as [s _ IH]. intros n <-. refine (IH (f (S n)) _ (S n) eq_refl). split; [apply O|]. destruct (H n) as (l & Ho & Hs). eauto.
  Qed.

  Variable eps : EndpointMap.
  Variable tin tout : TopicMap.
  Variable ea : list (EpArm Val Ctx).
  Variable ta : list (TpArm Val Ctx).
  Hypothesis Hdisp : dispatcher_for eps tin tout ea ta d.
  Hypothesis Hdev : device_ok std eps tout ea.
  Hypothesis Hkk : klen (d_kind _ _ d) <= klen kkind.
  Hypothesis Hlab : Forall (label_ok eps tin) cl.

  Section Safe.
  Hypothesis Hhand : handlers_ok std tout ea ta task bg.

  Lemma answered_real net' t p req seq body : starts t = starts tr ->
    answer_of std ea task net' kkind d t req seq body p -> answered std ea task d tr req seq body p.
  Proof.
    intros Es H. destruct H.
    - apply an_ping; auto.
    - apply an_schemas; auto.
    - eapply an_handler; eauto.
      + apply starts_in; [exact Logic.I|]. rewrite <- Es. apply in_starts; [exact Logic.I|]. rewrite H4. apply in_app_iff. right. left. reflexivity.
      + eapply TypedThm.run_prog_returns; eauto.
    - eapply an_task; eauto. apply starts_in; [exact Logic.I|]. rewrite <- Es. apply in_starts; [exact Logic.I|assumption].
  Qed.

  (** Hence a reply is the answer to its own request. *)
  Theorem C73_reply_is_the_answer :
    (N.of_nat (typed cl) <= 2 ^ 32)%N ->
    ~ In (compact (klen kkind) (k8_bytes (error_key std)))
         (map (fun k => compact (klen kkind) (k8_bytes k)) (map ep_resp (em_endpoints eps))) ->
    forall r f, In (r, GotReply f) (results es) ->
      exists req resp body p,
        nth_error (issued 0 cl) r = Some (MkFrame (MkHeader (VKey8 req) (Seq4 (N.of_nat r))) body, resp) /\
        (exists missing, enc p = f_body f ++ missing) /\
        (uncut (system_labels ls) -> f_body f = enc p) /\
        answered std ea task d tr req (N.of_nat r) body p.
  Proof.
    intros Hc Hek r f Hr. destruct C73_as_if_at_once as (net' & can' & ls' & s & more & R & _ & _ & _ & Es & _ & _ & U & _).
    destruct (C49_reply_is_the_answer std net' can' kkind spawn_ctxt enc task bg cfg eps tin tout ea ta d Hdisp Hdev Hhand Hkk _ _ _ _ _ R Hlab Hc Hek r f Hr)
      as (req & resp & body & p & H1 & H2 & H3 & H4). exists req, resp, body, p.
    split; [exact H1|]. split; [exact H2|]. split; [auto|]. eapply answered_real; eauto.
  Qed.

  (** Handlers run for the calls of this client only, each call at most once, and, if the
      link keeps the order, in the order in which the calls were accepted. *)
  Theorem C73_every_run_was_called :
    exists calls, Forall2 (run_of ea ta cl) (invocations tr) calls /\ NoDup calls /\ incl calls (accepted cl es) /\
      (up_in_order (system_labels ls) -> subsequence calls (accepted cl es)).
  Proof.
    destruct C73_as_if_at_once as (net' & can' & ls' & s & more & R & _ & _ & _ & Es & _ & _ & _ & U & _).
    destruct (C67_every_run_was_called std net' can' kkind spawn_ctxt enc task bg cfg eps tin tout ea ta d Hdisp Hhand Hkk _ _ _ _ _ R Hlab)
      as (calls & F & N & I & S). rewrite starts_invocations, Es, <- starts_invocations in F. exists calls. split; [exact F|]. split; [exact N|]. split; [exact I|]. auto.
  Qed.

  Lemma sent_header w h p r : In (EvSend w h p r) tr -> exists key sq, h = out_header kkind key sq /\ seq_ok sq.
  Proof.
    intros Hi. destruct C73_as_if_at_once as (net' & can' & ls' & s & more & R & _ & _ & _ & _ & P & _).
    destruct (reach_sys std net' can' kkind spawn_ctxt enc task bg cfg eps tin tout ea ta d Hdisp Hhand _ _ _ _ _ R) as (handled & HI).
    assert (Hi' : In (EvSend w h p r) (y_trace _ _ _ s)). { eapply Permutation_in; [apply Permutation_sym, P|]. apply in_app_iff. auto. }
    destruct (send_class std net' can' kkind spawn_ctxt enc task bg cfg eps tin tout ea ta d Hdisp Hdev Hhand Hkk _ _ _ _ _ HI Hlab _ _ _ _ Hi') as (key & sq & -> & Hs & _). eauto.
  Qed.
  Lemma real_part k part : subsequence part (filter (SubSpec.of_topic k) (arrived cl)) ->
    exists ps, Forall2 (body_of enc (system_labels ls)) part ps /\ (exists rest, Permutation (sent_on tr k) (ps ++ rest)) /\
      (down_in_order (system_labels ls) -> subsequence ps (sent_on tr k)).
  Proof.
    apply (part_of_sent enc (system_labels ls) tr cl (y_down _ _ _ (a_sys a))). { eapply a_flow; eauto. }
    intros w h p r Hi. destruct (sent_header _ _ _ _ Hi) as (key & sq & -> & Hs). exact Hs.
  Qed.
  Lemma client_run : exists c, run cfg cl client_new = Some (c, es).
  Proof.
    destruct C73_as_if_at_once as (net' & can' & ls' & s & more & R & _).
    destruct (reach_sys std net' can' kkind spawn_ctxt enc task bg cfg eps tin tout ea ta d Hdisp Hhand _ _ _ _ _ R) as (handled & HI).
    eexists. exact (si_run _ _ _ _ _ _ _ _ _ _ _ _ _ _ _ _ _ HI).
  Qed.

  (** What a subscription is given was transmitted under its topic, and, if the link keeps
      the order, in the order in which the server and the tasks transmitted. *)
  Theorem C73_given_was_sent :
    forall k id, subscribed cl es k id ->
      exists ps, Forall2 (body_of enc (system_labels ls)) (given cl es id) ps /\
        (exists rest, Permutation (sent_on tr k) (ps ++ rest)) /\
        (down_in_order (system_labels ls) -> subsequence ps (sent_on tr k)).
  Proof. intros k id Hs. apply real_part. destruct client_run as (c & R). eapply given_arrived; eauto. Qed.
  Theorem C73_given_multi_was_sent :
    forall k id, subscribed_multi cl es k id ->
      exists ps, Forall2 (body_of enc (system_labels ls)) (given_multi cl es id) ps /\
        (exists rest, Permutation (sent_on tr k) (ps ++ rest)) /\
        (down_in_order (system_labels ls) -> subsequence ps (sent_on tr k)).
  Proof. intros k id Hs. apply real_part. destruct client_run as (c & R). eapply given_multi_arrived; eauto. Qed.
  End Safe.

  Section Live.
  Hypothesis Hce : cfg_err_key cfg = error_key std.
  Hypothesis Hans : tasks_answer std ea task.
  Hypothesis Hdepth : 0 < cfg_depth cfg.
  Hypothesis Hcount : (N.of_nat (typed cl) <= 2 ^ 32)%N.
  Hypothesis Hsubs : subscriptions_apart kkind std eps cl.
  Hypothesis Hsent : forall h p r, In (EvSend ByDispatcher h p r) tr -> r <> TxErr TxConnectionClosed /\ r <> TxErr TxTimeout.
  Hypothesis Hrest : forall l, a_own_step l = true -> a_step l a = None.

  Lemma rest_at_once : exists net' can' ls' s, sys_run net' can' ls' (sys_new Val Ctx SCtx bg ctx0) = Some (s, cl, es) /\ (lossless (system_labels ls) -> lossless ls') /\
    y_serving _ _ _ s = true /\ (forall l, own_step l = true -> sys_step net' can' l s = None) /\
    lost_up (sys_step net' can') ls' (sys_new _ _ _ bg ctx0) = a_lost a_step loses_up ls (asys_new _ _ _ bg ctx0) /\
    lost_down (sys_step net' can') ls' (sys_new _ _ _ bg ctx0) = a_lost a_step loses_down ls (asys_new _ _ _ bg ctx0).
  Proof.
    destruct reach_sim as (ls' & s & R & Rl & Ok & L & Lo). specialize (R [] []). specialize (Lo [] []). eexists _, _, ls', s. split; [exact R|]. split; [apply (like_lossless _ _ L)|].
    match type of R with sys_run ?n ?c _ _ = _ => destruct (rest_rest std kkind spawn_ctxt d enc task cfg net can_spawn _ _ n c Rl Ok Hrest) as [C Rst] end.
    split; [|split; [exact Rst|exact Lo]]. eapply C70_keeps_serving; [exact R|]. intros h p r Hi.
    pose proof (ar_trace _ _ _ _ Rl) as P. unfold ahead in P. rewrite C in P. cbn in P. rewrite app_nil_r in P. eapply Hsent, Permutation_in; eauto.
  Qed.

  (** (Partial, like C70: [Hsubs].)  Once it is at rest, every request that was made and
      whose future was not dropped has returned, unless its own frame or an answer to it
      was lost, if no transmission of the dispatcher failed with a closed link or a
      timeout. *)
  Theorem C73_waits_because_lost_partial :
    forall r f resp, nth_error (issued 0 cl) r = Some (f, resp) -> ~ In (LCancel r) cl ->
      (exists res, In (r, res) (results es)) \/
      (exists b, In b (a_lost a_step loses_up ls (asys_new _ _ _ bg ctx0)) /\ request_frame f b) \/
      (exists b, In b (a_lost a_step loses_down ls (asys_new _ _ _ bg ctx0)) /\ answer_frame kkind std resp r b).
  Proof.
    destruct rest_at_once as (net' & can' & ls' & s & R & _ & Sv & Rest & Lu & Ld). rewrite <- Lu, <- Ld.
    exact (C70_waits_because_lost_partial std net' can' kkind spawn_ctxt enc task bg cfg d eps tin tout ea ta Hdisp Hdev Hkk Hce Hans Hdepth _ _ _ _ _ R Hlab Hcount Hsubs Sv Rest).
  Qed.

  (** In particular, over a link that loses nothing every such request returns. *)
  Theorem C73_every_call_returns_partial :
    lossless (system_labels ls) -> forall r, r < length (issued 0 cl) -> ~ In (LCancel r) cl -> exists res, In (r, res) (results es).
  Proof.
    intros Hless. destruct rest_at_once as (net' & can' & ls' & s & R & L & Sv & Rest & _).
    exact (C70_every_call_returns_partial std net' can' kkind spawn_ctxt enc task bg cfg d eps tin tout ea ta Hdisp Hdev Hkk Hce Hans Hdepth _ _ _ _ _ R Hlab Hcount Hsubs Sv Rest (L Hless)).
  Qed.
  Theorem C73_every_call_is_answered_partial :
    lossless (system_labels ls) -> handlers_ok std tout ea ta task bg ->
    ~ In (compact (klen kkind) (k8_bytes (error_key std)))
         (map (fun k => compact (klen kkind) (k8_bytes k)) (map ep_resp (em_endpoints eps))) ->
    (forall l, In l cl -> l <> LClose /\ (forall b, l <> LOutFail b) /\ l <> LInFail) ->
    forall r, r < length (issued 0 cl) -> ~ In (LCancel r) cl ->
      exists f, In (r, GotReply f) (results es) \/ In (r, GotError f) (results es).
  Proof.
    intros Hless. destruct rest_at_once as (net' & can' & ls' & s & R & L & Sv & Rest & _).
    exact (C70_every_call_is_answered_partial std net' can' kkind spawn_ctxt enc task bg cfg d eps tin tout ea ta Hdisp Hdev Hkk Hce Hans Hdepth _ _ _ _ _ R Hlab Hcount Hsubs Sv Rest (L Hless)).
  Qed.
  End Live.
End T.
Print Assumptions C73_dispatcher.
Print Assumptions C73_as_if_at_once.
Print Assumptions C73_own_steps_end.
Print Assumptions C73_reply_is_the_answer.
Print Assumptions C73_every_run_was_called.
Print Assumptions C73_given_was_sent.
Print Assumptions C73_given_multi_was_sent.
Print Assumptions C73_waits_because_lost_partial.
Print Assumptions C73_every_call_returns_partial.
Print Assumptions C73_every_call_is_answered_partial.

(** ** C73 Typed calls *)
Section Typed.
  Import CodecModel CodecSpec CodecStdModel TypedSpec.
  Context {Ctx SCtx : Type}.
  Variable std : StdKeys.
  Variable net : Trace value SCtx -> VarHeader -> Payload value -> TxRes.
  Variable can_spawn : Trace value SCtx -> nat -> bool.
  Variable kkind : VarKeyKind.
  Variable spawn_ctxt : Ctx -> Ctx * SCtx.
  Variable d : Dispatcher value Ctx.
  Variable task : nat -> SCtx -> VarHeader -> value -> HProg value unit.
  Variable bg : list (HProg value unit).
  Variable cfg : Config.
  Variable eps : EndpointMap.
  Variable tin tout : TopicMap.
  Variable ea : list (EpArm value Ctx).
  Variable ta : list (TpArm value Ctx).
  Variable rqty rsty : Key8 -> NamedType.

  (** A value returned to a caller is one that the endpoint's own handler computed from
      the caller's argument, whatever tasks were sending while it was waiting. *)
  Theorem C73_value_is_computed :
    dispatcher_for eps tin tout ea ta d ->
    device_ok std eps tout ea -> handlers_ok std tout ea ta task bg -> typed_device std ea task rqty rsty ->
    klen (d_kind _ _ d) <= klen kkind ->
    ~ In (compact (klen kkind) (k8_bytes (error_key std)))
         (map (fun k => compact (klen kkind) (k8_bytes k)) (map ep_resp (em_endpoints eps))) ->
    forall ctx0 ls a cl es,
      a_run value Ctx SCtx std net can_spawn kkind spawn_ctxt d payload_bytes task cfg ls (asys_new value Ctx SCtx bg ctx0) = Some (a, cl, es) ->
      Forall (label_ok eps tin) cl -> (N.of_nat (ClientSpec.typed cl) <= 2 ^ 32)%N ->
      forall r req v res w,
        called rqty cl r req v -> In (r, res) (results es) -> returned rsty req res = HOk _ _ w ->
        worked_out std ea task d (y_trace _ _ _ (a_sys _ _ _ a)) req (N.of_nat r) v w.
  Proof.
    intros Hdisp Hdev Hhand Hty Hkk Herr ctx0 ls a cl es Hrun Hlab Hc r req v res w H1 H2 H3.
    destruct (C73_as_if_at_once std net can_spawn kkind spawn_ctxt d payload_bytes task bg cfg ctx0 ls a cl es Hrun)
      as (net' & can' & ls' & s & more & R & _ & _ & _ & Es & _).
    pose proof (TypedThm.C66_value_is_computed std net' can' kkind spawn_ctxt task bg cfg eps tin tout ea ta d rqty rsty Hdisp Hdev Hhand Hty Hkk _ _ _ _ _ R Hlab Hc Herr r req v res w H1 H2 H3) as C.
    destruct C.
    - apply wo_ping; auto.
    - apply wo_schemas; auto.
    - eapply wo_handler; eauto.
      + apply starts_in; [exact Logic.I|]. rewrite <- Es. apply in_starts; [exact Logic.I|]. rewrite H6. apply in_app_iff. right. left. reflexivity.
      + eapply TypedThm.run_prog_returns; eauto.
    - eapply wo_task; eauto. apply starts_in; [exact Logic.I|]. rewrite <- Es. apply in_starts; [exact Logic.I|assumption].
  Qed.
End Typed.
Print Assumptions C73_value_is_computed.
