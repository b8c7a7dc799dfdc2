(** Theorems about the whole system over bounded channels: C78. *)
From Coq Require Import NArith List Bool Arith Lia Permutation.
From Verif Require Import KeyModel HeaderModel KeySpec HeaderSpec MinKeyModel MinKeySpec
  SchemaModel MacroModel PostcardModel DispatchModel DispatchSpec SubModel SubSpec SubProof ClientModel ClientSpec ClientProof ClientMore ClientHist UsbSpec.
From Verif Require Import DispatchModel DispatchSpec SystemModel SystemSpec SystemProof SystemThm FlowSpec FlowProof FlowThm LiveSpec LiveProof LiveThm
  AsyncModel AsyncSpec AsyncProof AsyncThm MissSpec MissThm ChanModel ChanSysModel ChanSysSpec ChanSysProof ChanSysLive.
From Verif Require CodecModel CodecSpec TypedSpec TypedThm.
Import ListNotations.

Section T.
  Context {Val Ctx SCtx : Type}.
  Variable std : StdKeys.
  Variable can_spawn : Trace Val SCtx -> nat -> bool.
  Variable kkind : VarKeyKind.
  Variable spawn_ctxt : Ctx -> Ctx * SCtx.
  Variable d : Dispatcher Val Ctx.
  Variable enc : Payload Val -> list N.
  Variable task : nat -> SCtx -> VarHeader -> Val -> HProg Val unit.
  Variable bg : list (HProg Val unit).
  Variable cfg : Config.
  Variable cap_up cap_down buf : nat.

  Notation c_step := (c_step Val Ctx SCtx std can_spawn kkind spawn_ctxt d enc task cfg cap_up cap_down buf).
  Notation c_run := (c_run Val Ctx SCtx std can_spawn kkind spawn_ctxt d enc task cfg cap_up cap_down buf).
  Notation csys_new := (csys_new Val Ctx SCtx).
  Notation a_step n := (a_step Val Ctx SCtx std n can_spawn kkind spawn_ctxt d enc task cfg).
  Notation a_run n := (a_run Val Ctx SCtx std n can_spawn kkind spawn_ctxt d enc task cfg).
  Notation cs_a := (cs_a Val Ctx SCtx). Notation cs_stopped := (cs_stopped Val Ctx SCtx). Notation cs_dropped := (cs_dropped Val Ctx SCtx).
  Notation up c := (y_up _ _ _ (a_sys _ _ _ (cs_a c))).
  Notation down c := (y_down _ _ _ (a_sys _ _ _ (cs_a c))).

  Variable ctx0 : Ctx.
  Variable ls : list CLabel.
  Variable c : CSys Val Ctx SCtx.
  Variable cl : list Label.
  Variable es : list (list Ev).
  Hypothesis Hrun : c_run ls (csys_new bg ctx0) = Some (c, cl, es).

  Lemma reach_k : KInv cap_up cap_down c.
  Proof. eapply kinv_run; [exact Hrun|]. apply kinv_new. Qed.
  Lemma reach_client : run cfg cl client_new = Some (cs_client c, es).
  Proof. destruct (run_sim std can_spawn kkind spawn_ctxt d enc task cfg cap_up cap_down buf _ _ _ _ _ Hrun) as (lsa & new & [_ R _ _ _ _]). exact (a_client_run std can_spawn kkind spawn_ctxt d enc task cfg _ _ _ _ _ _ (R [])). Qed.

  (** ** C78 Bounded channels *)

  (** Neither channel ever holds more frames than its capacity. *)
  Theorem C78_bounded : length (up c) <= cap_up /\ length (down c) <= cap_down.
  Proof. destruct reach_k. auto. Qed.

  (** What happens over the channels could happen over a link that cuts nothing, keeps
      the order, and loses frames on the way to the server only if they do not fit its
      buffer, and frames on the way to the client only if the server was told that they
      were not sent; which happens only after the server was stopped or the client's
      receiver is gone.  Hence everything proved of such a link (C73, C75, C76, C77)
      holds over the channels. *)
  Theorem C78_as_over_a_link :
    exists net ls',
      a_run net ls' (asys_new Val Ctx SCtx bg ctx0) = Some (cs_a c, cl, es) /\
      uncut (system_labels ls') /\ up_in_order (system_labels ls') /\ down_in_order (system_labels ls') /\
      (forall b, In b (a_lost (a_step net) loses_up ls' (asys_new Val Ctx SCtx bg ctx0)) -> buf < length b) /\
      (forall b, In b (a_lost (a_step net) loses_down ls' (asys_new Val Ctx SCtx bg ctx0)) ->
         exists w h p, In (EvSend w h p (TxErr TxConnectionClosed)) (cs_trace c) /\ b = rpc_to_bytes (MkFrame h (enc p))) /\
      (forall w h p r, In (EvSend w h p r) (cs_trace c) ->
         r = TxOk \/ (r = TxErr TxConnectionClosed /\ (cs_stopped c = true \/ c_in_alive (cs_client c) = false))).
  Proof.
    destruct (run_sim std can_spawn kkind spawn_ctxt d enc task cfg cap_up cap_down buf _ _ _ _ _ Hrun) as (lsa & new & [T R U D O S]).
    exists (net_of (outcomes (cs_trace c) ++ [])), lsa. cbn [csys_new cs_a ChanSysModel.cs_a ChanSysModel.csys_new fst snd] in *. rewrite Forall_forall in O.
    assert (E : cs_trace c = new) by exact T. rewrite E in *. pose proof (U []) as U'. pose proof (D []) as D'. rewrite Forall_forall in U', D'.
    split; [apply R|]. split; [intros i n Hi; exact (O _ Hi)|]. split; [intros i Hi; exact (O _ Hi)|]. split; [intros i Hi; exact (O _ Hi)|]. split; [exact U'|]. split; [exact D'|exact S].
  Qed.

  (** The client is told that the other side is gone only when nothing more can come: the
      server was dropped, no task has anything left to transmit, and everything that was
      transmitted has been received. *)
  Theorem C78_told_last :
    In LInFail cl -> cs_dropped c = true /\ tasks_done c /\ down c = [].
  Proof. intros F. eapply (gone_run std can_spawn kkind spawn_ctxt d enc task cfg cap_up cap_down buf); [apply kinv_new|exact Hrun|right; exact F]. Qed.

  (** Left to itself, the system comes to rest. *)
  Theorem C78_own_steps_end :
    forall f : nat -> CSys Val Ctx SCtx,
      f 0 = c -> ~ (forall n, exists l ce, c_own_step l = true /\ c_step l (f n) = Some (f (S n), ce)).
  Proof.
    intros f E H.
    assert (O : forall n, KInv cap_up cap_down (f n) /\ FInv (cs_client (f n))).
    { induction n as [|n [I1 I2]]; [rewrite E; split; [apply reach_k|eapply reach_finv, reach_client]|]. destruct (H n) as (l & ce & _ & Hs). split; [eapply kinv_step; eauto|].
      destruct (step_sim std can_spawn kkind spawn_ctxt d enc task cfg cap_up cap_down buf _ _ _ _ Hs) as (lsa & new & [_ R _ _ _ _]).
      specialize (R []). apply (a_client_run std can_spawn kkind spawn_ctxt d enc task cfg) in R. cbn [fst snd] in R. destruct ce as [[l' e]|]; cbn [labs evss run] in R.
      - destruct (step cfg l' _) as [[c1 e1]|] eqn:Sx; [|discriminate]. injection R as R _. unfold cs_client. rewrite <- R. eapply finv_step; eauto.
      - injection R as R. unfold cs_client. rewrite <- R. exact I2. }
    pose proof (c_less_wf (f 0)) as A.
    enough (G : forall s, Acc c_less s -> forall n, f n <> s) by exact (G _ A 0 eq_refl).
    clear A. intros s A. induction A as [s _ IH]. intros n <-. refine (IH (f (S n)) _ (S n) eq_refl). destruct (H n) as (l & ce & Ho & Hs). destruct (O n). eapply own_c_less; eauto.
  Qed.

  Section Rest.
  Hypothesis Hup : 0 < cap_up.
  Hypothesis Hdown : 0 < cap_down.
  Hypothesis Hrest : forall l, c_own_step l = true -> c_step l c = None.

  (** And when it has, nobody waits for anybody: whatever the capacities, full channels
      do not deadlock.  The server is not in the middle of a frame and has received
      everything, unless [run] has returned; every task has finished; and the client has
      taken everything that was sent to it, unless it no longer receives. *)
  Theorem C78_no_deadlock :
    a_cur _ _ _ (cs_a c) = None /\ tasks_done c /\
    (run_returned c \/ up c = []) /\ (c_in_alive (cs_client c) = false \/ down c = []).
  Proof.
    pose proof reach_k as K. pose proof (reach_finv _ _ _ _ reach_client) as F. pose proof (reach_cinv _ _ _ _ reach_client) as HI.
    split; [exact (rest_cur std can_spawn kkind spawn_ctxt d enc task cfg cap_up cap_down buf c K F HI Hup Hdown Hrest)|]. split; [exact (rest_tasks std can_spawn kkind spawn_ctxt d enc task cfg cap_up cap_down buf c F HI Hup Hdown Hrest)|]. split.
    - destruct (rest_run std can_spawn kkind spawn_ctxt d enc task cfg cap_up cap_down buf c K F HI Hup Hdown Hrest) as [X|X]; auto. right. apply X.
    - destruct (c_in_alive (cs_client c)) eqn:A; auto. right. exact (proj1 (proj2 (proj2 (rest_idle std can_spawn kkind spawn_ctxt d enc task cfg cap_up cap_down buf c F HI Hrest A)))).
  Qed.

  (** Stopping the server, or closing the client, ends [run]. *)
  Theorem C78_stop :
    cs_stopped c = true \/ is_closed (cs_client c) = true -> run_returned c.
  Proof.
    pose proof reach_k as K. pose proof (reach_finv _ _ _ _ reach_client) as F. pose proof (reach_cinv _ _ _ _ reach_client) as HI.
    intros [X|X].
    - destruct (rest_run std can_spawn kkind spawn_ctxt d enc task cfg cap_up cap_down buf c K F HI Hup Hdown Hrest) as [Y|(_ & _ & Y & _)]; auto. congruence.
    - apply (rest_closed std can_spawn kkind spawn_ctxt d enc task cfg cap_up cap_down buf c K F HI Hup Hdown Hrest X).
  Qed.

  (** If the client is closed, or the server was dropped, every call has returned (the
      client notices that the server is gone); likewise every publication. *)
  Theorem C78_closed :
    is_closed (cs_client c) = true \/ cs_dropped c = true ->
    is_closed (cs_client c) = true /\
    (forall r, r < length (issued 0 cl) -> ~ In (LCancel r) cl -> exists res, In (r, res) (results es)) /\
    (forall i f, nth_error (c_pubs (cs_client c)) i <> Some (Some f)).
  Proof.
    pose proof reach_k as K. pose proof (reach_finv _ _ _ _ reach_client) as F. pose proof (reach_cinv _ _ _ _ reach_client) as HI.
    intros X. assert (St : c_stopped (cs_client c) = true). { destruct X as [X|X]; [exact X|]. exact (rest_dropped std can_spawn kkind spawn_ctxt d enc task cfg cap_up cap_down buf c F HI Hup Hdown Hrest X). }
    split; [exact St|]. destruct (rest_closed std can_spawn kkind spawn_ctxt d enc task cfg cap_up cap_down buf c K F HI Hup Hdown Hrest St) as (A & B & R & P & _). split; [|exact P].
    intros r Hr Hc. destruct (reach_issued _ _ _ _ reach_client) as (_ & L & _).
    destruct (nth_error (c_reqs (cs_client c)) r) as [q|] eqn:Hq; [|apply nth_error_None in Hq; lia].
    destruct (reach_ended _ _ _ _ r reach_client) as [Y|Y]; [exists q; eauto|contradiction|exact Y].
  Qed.
  End Rest.

  Variable eps : EndpointMap.
  Variable tin tout : TopicMap.
  Variable ea : list (EpArm Val Ctx).
  Variable ta : list (TpArm Val Ctx).
  Hypothesis Hdisp : dispatcher_for eps tin tout ea ta d.
  Hypothesis Hdev : device_ok std eps tout ea.
  Hypothesis Hkk : klen (d_kind _ _ d) <= klen kkind.
  Hypothesis Hlab : Forall (label_ok eps tin) cl.

  Section Safe.
  Hypothesis Hhand : handlers_ok std tout ea ta task bg.

  (** A reply is the answer to its own request, in full. *)
  Theorem C78_reply_is_the_answer :
    (N.of_nat (typed cl) <= 2 ^ 32)%N ->
    ~ In (compact (klen kkind) (k8_bytes (error_key std)))
         (map (fun k => compact (klen kkind) (k8_bytes k)) (map ep_resp (em_endpoints eps))) ->
    forall r f, In (r, GotReply f) (results es) ->
      exists req resp body p,
        nth_error (issued 0 cl) r = Some (MkFrame (MkHeader (VKey8 req) (Seq4 (N.of_nat r))) body, resp) /\
        f_body f = enc p /\ answered std ea task d (cs_trace c) req (N.of_nat r) body p.
  Proof.
    intros Hc He r f Hr. destruct C78_as_over_a_link as (net & ls' & R & U & _).
    destruct (C73_reply_is_the_answer std net can_spawn kkind spawn_ctxt d enc task bg cfg ctx0 ls' _ _ _ R eps tin tout ea ta Hdisp Hdev Hkk Hlab Hhand Hc He r f Hr)
      as (req & resp & body & p & H1 & _ & H2 & H3). exists req, resp, body, p. split; [exact H1|]. split; [exact (H2 U)|exact H3].
  Qed.

  (** Handlers run for the calls of this client only, each call at most once, in the
      order in which the calls were accepted. *)
  Theorem C78_every_run_was_called :
    exists calls, Forall2 (run_of ea ta cl) (invocations (cs_trace c)) calls /\ NoDup calls /\ subsequence calls (accepted cl es).
  Proof.
    destruct C78_as_over_a_link as (net & ls' & R & _ & U & _).
    destruct (C73_every_run_was_called std net can_spawn kkind spawn_ctxt d enc task bg cfg ctx0 ls' _ _ _ R eps tin tout ea ta Hdisp Hkk Hlab Hhand) as (calls & F & N & _ & S). eauto.
  Qed.

  (** What a subscription is given was transmitted under its topic, in full and in the
      order in which it was transmitted. *)
  Theorem C78_given_was_sent :
    forall k id, subscribed cl es k id ->
      exists ps, Forall2 (fun f p => f_body f = enc p) (given cl es id) ps /\ subsequence ps (sent_on (cs_trace c) k).
  Proof.
    intros k id Hs. destruct C78_as_over_a_link as (net & ls' & R & U & _ & Dn & _).
    destruct (C73_given_was_sent std net can_spawn kkind spawn_ctxt d enc task bg cfg ctx0 ls' _ _ _ R eps tin tout ea ta Hdisp Hdev Hkk Hlab Hhand k id Hs) as (ps & F & _ & S).
    exists ps. split; [|auto]. clear - F U. induction F as [|f p fs ps (m & E & M) F IH]; constructor; auto. rewrite E, (M U), app_nil_r. reflexivity.
  Qed.
  Theorem C78_given_multi_was_sent :
    forall k id, subscribed_multi cl es k id ->
      exists ps, Forall2 (fun f p => f_body f = enc p) (given_multi cl es id) ps /\ subsequence ps (sent_on (cs_trace c) k).
  Proof.
    intros k id Hs. destruct C78_as_over_a_link as (net & ls' & R & U & _ & Dn & _).
    destruct (C73_given_multi_was_sent std net can_spawn kkind spawn_ctxt d enc task bg cfg ctx0 ls' _ _ _ R eps tin tout ea ta Hdisp Hdev Hkk Hlab Hhand k id Hs) as (ps & F & _ & S).
    exists ps. split; [|auto]. clear - F U. induction F as [|f p fs ps (m & E & M) F IH]; constructor; auto. rewrite E, (M U), app_nil_r. reflexivity.
  Qed.
  End Safe.

  Section Live.
  Hypothesis Hce : cfg_err_key cfg = error_key std.
  Hypothesis Hans : tasks_answer std ea task.
  Hypothesis Hdepth : 0 < cfg_depth cfg.
  Hypothesis Hcount : (N.of_nat (typed cl) <= 2 ^ 32)%N.
  Hypothesis Hsubs : subscriptions_apart kkind std eps cl.
  Hypothesis Hup : 0 < cap_up.
  Hypothesis Hdown : 0 < cap_down.
  Hypothesis Hrest : forall l, c_own_step l = true -> c_step l c = None.
  Hypothesis Hstop : cs_stopped c = false.

  (** (Partial, like C70: [Hsubs].)  Once the system is at rest, and if the server was not
      stopped, every request that was made and whose future was not dropped has returned,
      unless its frame does not fit the server's buffer: whatever the (positive)
      capacities of the channels, whether the client was closed or not, and whether the
      server was dropped or not. *)
  Theorem C78_every_call_returns_partial :
    forall r f resp, nth_error (issued 0 cl) r = Some (f, resp) -> ~ In (LCancel r) cl ->
      (exists res, In (r, res) (results es)) \/ (exists b, request_frame f b /\ buf < length b).
  Proof.
    intros r f resp Hr Hc. pose proof reach_k as K. pose proof (reach_finv _ _ _ _ reach_client) as F. pose proof (reach_cinv _ _ _ _ reach_client) as HI.
    destruct (c_stopped (cs_client c)) eqn:St.
    - left. destruct (C78_closed Hup Hdown Hrest (or_introl St)) as (_ & X & _). apply X; auto. apply nth_error_Some. congruence.
    - destruct F as (F1 & F2 & F').
      assert (Ai : c_in_alive (cs_client c) = true) by (destruct (c_in_alive (cs_client c)); auto; specialize (F2 eq_refl); congruence).
      assert (Ao : c_out_alive (cs_client c) = true) by (destruct (c_out_alive (cs_client c)); auto; specialize (F1 eq_refl); congruence).
      destruct C78_as_over_a_link as (net & ls' & R & _ & _ & _ & Lu & Ld & Sent).
      assert (Ok : forall w h p r, In (EvSend w h p r) (cs_trace c) -> r = TxOk) by (intros w h p x Hi; destruct (Sent _ _ _ _ Hi) as [X|(_ & [X|X])]; auto; congruence).
      assert (Cu : a_cur _ _ _ (cs_a c) = None) by (apply (C78_no_deadlock Hup Hdown Hrest)).
      assert (Sv : y_serving _ _ _ (a_sys _ _ _ (cs_a c)) = true).
      { destruct (C73_as_if_at_once std net can_spawn kkind spawn_ctxt d enc task bg cfg ctx0 ls' _ _ _ R) as (net' & can' & ls2 & s & more & R2 & _ & _ & _ & _ & P & Y & _).
        destruct (Y Cu) as (-> & _ & Y1 & _). rewrite <- Y1. eapply C70_keeps_serving; [exact R2|]. intros h p x Hi. rewrite app_nil_r in P. apply (Permutation_in _ P) in Hi. unfold cs_trace in Ok. rewrite (Ok _ _ _ _ Hi). split; discriminate. }
      assert (Nr : ~ run_returned c). { intros (_ & [X|X]); [|congruence]. destruct (k_why _ _ _ K X); congruence. }
      assert (Rst : forall l, a_own_step l = true -> a_step net l (cs_a c) = None) by (intros l Hl; exact (rest_rest' std can_spawn kkind spawn_ctxt d enc task cfg cap_up cap_down buf c K (conj F1 (conj F2 F')) HI Hup Hdown Hrest net l Nr Hl)).
      assert (Hsent : forall h p r, In (EvSend ByDispatcher h p r) (y_trace _ _ _ (a_sys _ _ _ (cs_a c))) -> r <> TxErr TxConnectionClosed /\ r <> TxErr TxTimeout).
      { intros h p x Hi. rewrite (Ok _ _ _ _ Hi). split; discriminate. }
      destruct (C73_waits_because_lost_partial std net can_spawn kkind spawn_ctxt d enc task bg cfg ctx0 ls' _ _ _ R eps tin tout ea ta Hdisp Hdev Hkk Hlab Hce Hans Hdepth Hcount Hsubs Hsent Rst r f resp Hr Hc)
        as [X|[(b & X & Y)|(b & X & Y)]]; auto.
      + right. exists b. auto.
      + exfalso. destruct (Ld _ X) as (w & h & p & Hi & _). specialize (Ok _ _ _ _ Hi). discriminate.
  Qed.

  (** If the client was not closed and the server was not dropped, the result is an answer
      of the server: the reply or a wire error. *)
  Theorem C78_every_call_is_answered_partial :
    handlers_ok std tout ea ta task bg ->
    ~ In (compact (klen kkind) (k8_bytes (error_key std)))
         (map (fun k => compact (klen kkind) (k8_bytes k)) (map ep_resp (em_endpoints eps))) ->
    ~ In LClose cl -> cs_dropped c = false ->
    forall r f resp, nth_error (issued 0 cl) r = Some (f, resp) -> ~ In (LCancel r) cl ->
      (exists g, In (r, GotReply g) (results es) \/ In (r, GotError g) (results es)) \/
      (exists b, request_frame f b /\ buf < length b).
  Proof.
    intros Hhand Herr Hcl Hdr r f resp Hr Hc. destruct (C78_every_call_returns_partial r f resp Hr Hc) as [(res & X)|X]; auto. left.
    destruct res as [g|g| |]; eauto; exfalso.
    - destruct C78_as_over_a_link as (net & ls' & R & _).
      destruct (C73_as_if_at_once std net can_spawn kkind spawn_ctxt d enc task bg cfg ctx0 ls' _ _ _ R) as (net' & can' & ls2 & s & more & R2 & _).
      exact (C50_requests_can_be_issued_partial std net' can' kkind spawn_ctxt enc task bg cfg eps tin tout ea ta d Hdisp Hhand _ _ _ _ _ R2 Hlab Hcount Herr Hce r X).
    - destruct (fails_run std can_spawn kkind spawn_ctxt d enc task cfg cap_up cap_down buf _ _ _ _ _ Hrun) as (_ & Y). specialize (Y Hdr).
      refine (proj2 (stays_open _ _ _ _ reach_client _) _ X). intros l Hl. destruct (Y _ Hl). split; auto. intros ->. contradiction.
  Qed.
  End Live.
End T.
(** *** Subscribers over bounded channels *)
Lemma alive_receiving cfg cl : forall c c' es, run cfg cl c = Some (c', es) -> c_in_alive c' = true -> still_receiving cl.
Proof.
  induction cl as [|l cl IH]; intros c c' es H A; cbn [run] in H; [split; intros []|].
  destruct (step cfg l c) as [[c1 e]|] eqn:St; [|discriminate]. destruct (run cfg cl c1) as [[c2 es2]|] eqn:R; [|discriminate]. injection H as -> _.
  destruct (IH _ _ _ R A) as [I1 I2]. pose proof (run_in_alive _ _ _ _ _ R A) as A1.
  split; intros [->|X]; [|contradiction| |contradiction]; cbn [step] in St.
  - destruct (c_offer c); [discriminate|]. destruct (_ || _)%bool; [discriminate|]. injection St as <- _. cbn in A1. congruence.
  - destruct (_ && _)%bool; [|discriminate]. injection St as <- _. cbn in A1. congruence.
Qed.

Section Miss.
  Context {Val Ctx SCtx : Type}.
  Variable std : StdKeys.
  Variable can_spawn : Trace Val SCtx -> nat -> bool.
  Variable kkind : VarKeyKind.
  Variable spawn_ctxt : Ctx -> Ctx * SCtx.
  Variable d : Dispatcher Val Ctx.
  Variable enc : Payload Val -> list N.
  Variable task : nat -> SCtx -> VarHeader -> Val -> HProg Val unit.
  Variable bg : list (HProg Val unit).
  Variable cfg : Config.
  Variable cap_up cap_down buf : nat.

  Notation c_step := (c_step Val Ctx SCtx std can_spawn kkind spawn_ctxt d enc task cfg cap_up cap_down buf).
  Notation c_run := (c_run Val Ctx SCtx std can_spawn kkind spawn_ctxt d enc task cfg cap_up cap_down buf).
  Notation csys_new := (csys_new Val Ctx SCtx).
  Notation a_step n := (a_step Val Ctx SCtx std n can_spawn kkind spawn_ctxt d enc task cfg).
  Notation a_run n := (a_run Val Ctx SCtx std n can_spawn kkind spawn_ctxt d enc task cfg).
  Notation cs_a := (cs_a Val Ctx SCtx). Notation cs_stopped := (cs_stopped Val Ctx SCtx).
  Notation down c := (y_down _ _ _ (a_sys _ _ _ (cs_a c))).

  Lemma lost_none net lsa : forall a a' cl es, a_run net lsa a = Some (a', cl, es) -> Forall in_turn (system_labels lsa) ->
    a_lost (a_step net) loses_down lsa a = [] -> keeps_down (system_labels lsa).
  Proof.
    induction lsa as [|l lsa IH]; intros a a' cl es R T L; [intros x []|]. cbn [AsyncModel.a_run a_lost] in R, L.
    destruct (a_step net l a) as [a1|] eqn:St; [|discriminate]. apply app_eq_nil in L as [L1 L2].
    destruct (a_run net lsa a1) as [[[a2 cl2] es2]|] eqn:R2; [|discriminate].
    destruct l as [l|]; [|exact (IH _ _ _ _ R2 T L2)]. change (system_labels (ASystem l :: lsa)) with (l :: system_labels lsa) in T |- *.
    intros x [<-|Hx]; [|exact (IH _ _ _ _ R2 (Forall_inv_tail T) L2 x Hx)]. apply Forall_inv in T.
    destruct l; try exact Logic.I; try destruct T. cbn [loses_down] in L1. cbn [AsyncModel.a_step SystemModel.sys_step] in St. destruct (nth_error _ _); discriminate.
  Qed.

  Variable eps : EndpointMap.
  Variable tin tout : TopicMap.
  Variable ea : list (EpArm Val Ctx).
  Variable ta : list (TpArm Val Ctx).
  Hypothesis Hdisp : dispatcher_for eps tin tout ea ta d.
  Hypothesis Hdev : device_ok std eps tout ea.
  Hypothesis Hkk : klen (d_kind _ _ d) <= klen kkind.
  Hypothesis Hhand : handlers_ok std tout ea ta task bg.

  (** Before the subscription, the subscription [o], after it. *)
  Variable ctx0 : Ctx.
  Variable ls1 ls2 : list CLabel.
  Variable c1 c2 c : CSys Val Ctx SCtx.
  Variable cl1 cl2 : list Label.
  Variable es1 es2 : list (list Ev).
  Variable o : SubOp.
  Variable k : Key8.
  Variable depth id : nat.
  Hypothesis Hrun1 : c_run ls1 (csys_new bg ctx0) = Some (c1, cl1, es1).
  Hypothesis Hsub : c_step (CClient (LSub o)) c1 = Some (c2, Some (LSub o, [EvSub (ORes (Subscribed id))])).
  Hypothesis Hrun2 : c_run ls2 c2 = Some (c, cl2, es2).
  Hypothesis Hlab1 : Forall (label_ok eps tin) cl1.
  Hypothesis Hlab2 : Forall (label_ok eps tin) cl2.
  (** Neither was the server stopped, nor has the client stopped receiving. *)
  Hypothesis Hstop : cs_stopped c = false.
  Hypothesis Halive : c_in_alive (cs_client c) = true.

  Lemma miss_runs : exists net l1 l2,
    a_run net l1 (asys_new Val Ctx SCtx bg ctx0) = Some (cs_a c1, cl1, es1) /\
    a_run net [ASystem (SClient (LSub o))] (cs_a c1) = Some (cs_a c2, [LSub o], [[EvSub (ORes (Subscribed id))]]) /\
    a_run net l2 (cs_a c2) = Some (cs_a c, cl2, es2) /\ keeps_down (system_labels l2) /\ down_in_order (system_labels l2) /\ still_receiving (cl1 ++ cl2) /\
    (forall w h p r, In (EvSend w h p r) (cs_trace c) -> r = TxOk) /\ cs_trace c2 = cs_trace c1.
  Proof.
    destruct (run_sim std can_spawn kkind spawn_ctxt d enc task cfg cap_up cap_down buf _ _ _ _ _ Hrun1) as (l1 & n1 & [T1 R1 U1 D1 O1 S1]).
    destruct (run_sim std can_spawn kkind spawn_ctxt d enc task cfg cap_up cap_down buf _ _ _ _ _ Hrun2) as (l2 & n2 & [T2 R2 U2 D2 O2 S2]).
    cbn [fst snd] in *. cbn [ChanSysModel.c_step] in Hsub.
    destruct (client_step_inv std can_spawn kkind spawn_ctxt d enc task cfg _ _ _ _ Hsub) as (cl & e & a & Sx & Sa & E2 & Ee). injection Ee as Ee. rewrite <- Ee in Sx. clear e Ee.
    assert (Tr : cs_trace c2 = cs_trace c1). { rewrite E2. unfold cs_trace. cbn [with_a ChanSysModel.cs_a]. rewrite (a_client std can_spawn kkind spawn_ctxt d enc task cfg (LSub o) (cs_a c1) ltac:(discriminate)) in Sa. destruct (step _ _ _) as [[cc e]|]; [|discriminate]. injection Sa as <-. reflexivity. }
    assert (En : forall os, outcomes (cs_trace c) ++ os = outcomes (cs_trace c1) ++ (outcomes n2 ++ os)) by (intros; rewrite T2, Tr, outcomes_app, app_assoc; reflexivity).
    pose (net := (net_of (outcomes (cs_trace c) ++ []) : Trace Val SCtx -> VarHeader -> Payload Val -> TxRes)).
    assert (R1' : a_run net l1 (asys_new Val Ctx SCtx bg ctx0) = Some (cs_a c1, cl1, es1)) by (unfold net; rewrite En; apply R1).
    assert (R2' : a_run net l2 (cs_a c2) = Some (cs_a c, cl2, es2)) by apply R2.
    assert (Rs : a_run net [ASystem (SClient (LSub o))] (cs_a c1) = Some (cs_a c2, [LSub o], [[EvSub (ORes (Subscribed id))]])).
    { assert (Sa' : a_step net (ASystem (SClient (LSub o))) (cs_a c1) = Some a) by exact Sa.
      pose proof (one_run std can_spawn kkind spawn_ctxt d enc task cfg net _ _ _ Sa') as X. cbn [a_client_label client_label] in X. rewrite E2. exact (X _ _ Sx). }
    assert (Ok2 : forall w h p r, In (EvSend w h p r) n2 -> r = TxOk) by (intros w h p r Hi; destruct (S2 _ _ _ _ Hi) as [X|(_ & [X|X])]; auto; congruence).
    exists net, l1, l2. split; [exact R1'|]. split; [exact Rs|]. split; [exact R2'|]. split.
    - apply (lost_none net _ _ _ _ _ R2' O2). pose proof (D2 []) as D. fold net in D. destruct (a_lost _ _ _ _) as [|b t]; auto. apply Forall_inv in D as (w & h & p & Hi & _). specialize (Ok2 _ _ _ _ Hi). discriminate.
    - rewrite Forall_forall in O2. split; [intros i Hi; exact (O2 _ Hi)|]. split; [|split; [|exact Tr]].
      + pose proof (a_client_run std can_spawn kkind spawn_ctxt d enc task cfg _ _ _ _ _ _ R2') as Q2. pose proof (alive_receiving _ _ _ _ _ Q2 Halive) as [X1 X2].
        pose proof (run_in_alive _ _ _ _ _ Q2 Halive) as A2. pose proof (a_client_run std can_spawn kkind spawn_ctxt d enc task cfg _ _ _ _ _ _ Rs) as Q0. pose proof (run_in_alive _ _ _ _ _ Q0 A2) as A1.
        pose proof (a_client_run std can_spawn kkind spawn_ctxt d enc task cfg _ _ _ _ _ _ R1') as Q1. destruct (alive_receiving _ _ _ _ _ Q1 A1) as [Y1 Y2].
        split; rewrite in_app_iff; intros [Z|Z]; auto.
      + intros w h p r Hi. destruct (run_flags std can_spawn kkind spawn_ctxt d enc task cfg cap_up cap_down buf _ _ _ _ _ Hrun2) as (Fl1 & Fl2).
        rewrite T2, Tr, in_app_iff in Hi. destruct Hi as [Hi|Hi]; [|eauto]. rewrite T1 in Hi. unfold cs_trace at 1 in Hi. cbn in Hi.
        destruct (S1 _ _ _ _ Hi) as [X|(_ & [X|X])]; auto; exfalso.
        * assert (cs_stopped c2 = true) by (rewrite E2; exact X). rewrite Fl1 in Hstop by auto. discriminate.
        * rewrite Fl2 in Halive; [discriminate|]. pose proof (a_client_run std can_spawn kkind spawn_ctxt d enc task cfg _ _ _ _ _ _ Rs) as Q0.
          unfold cs_client in *. destruct (c_in_alive (y_client _ _ _ (a_sys _ _ _ (cs_a c2)))) eqn:A2; auto. pose proof (run_in_alive _ _ _ _ _ Q0 A2). congruence.
  Qed.

  (** Hence a subscriber that keeps its subscription, and is either patient or quick
      enough (C75), misses nothing, whatever the capacity of the channel: what it was
      given, what waits for it, and what is still in the channel, is what was in the
      channel when it subscribed and what the server and its tasks transmitted since, in
      this order; and all these transmissions succeeded. *)
  Theorem C78_nothing_missed :
    o = SubscribeExclusive k depth ->
    kept cl2 k id -> only_topic kkind k (cl1 ++ LSub o :: cl2) ->
    patient cl2 cfg \/ keeps_up cl2 es2 k id depth ->
    exists new waiting,
      cs_trace c = cs_trace c1 ++ new /\ (forall w h p r, In (EvSend w h p r) new -> r = TxOk) /\
      given cl2 es2 id ++ waiting ++ on_the_way k (down c) = on_the_way k (down c1) ++ messages enc new k /\
      length waiting <= S depth /\
      (found_empty cl2 es2 id -> (forall l, c_own_step l = true -> c_step l c = None) ->
         given cl2 es2 id = on_the_way k (down c1) ++ messages enc new k).
  Proof.
    intros Eo Hk Ho Hp. destruct miss_runs as (net & l1 & l2 & R1 & Rs & R2 & Kd & Do & Sr & Ok & Tr). rewrite Eo in Rs, Ho.
    destruct (C75_nothing_missed std net can_spawn kkind spawn_ctxt d enc task bg cfg eps tin tout ea ta Hdisp Hdev Hkk Hhand ctx0 k depth id l1 l2 _ _ _ _ _ _ _ R1 R2 Hlab1 Hlab2 Sr Kd Rs Hk Ho Hp)
      as (new & waiting & T & _ & Q & W & _ & Z). specialize (Q Do). exists new, waiting. split; [exact T|]. split.
    { intros w h p r Hi. apply (Ok w h p r). unfold cs_trace. rewrite T. apply in_app_iff. auto. }
    split; [exact Q|]. split; [exact W|]. intros Fe Hrest.
    destruct (a_then std can_spawn kkind spawn_ctxt d enc task cfg net _ _ _ _ _ _ _ _ _ R1 (proj1 (a_then std can_spawn kkind spawn_ctxt d enc task cfg net _ _ _ _ _ _ _ _ _ Rs R2))) as [Ra _].
    pose proof (a_client_run std can_spawn kkind spawn_ctxt d enc task cfg _ _ _ _ _ _ Ra) as Rc. change (y_client Val Ctx SCtx (a_sys Val Ctx SCtx (asys_new Val Ctx SCtx bg ctx0))) with client_new in Rc. fold (cs_client c) in Rc.
    destruct (rest_idle std can_spawn kkind spawn_ctxt d enc task cfg cap_up cap_down buf c (reach_finv _ _ _ _ Rc) (reach_cinv _ _ _ _ Rc) Hrest Halive) as (_ & B & Dn & _).
    rewrite (Z Fe (or_intror B)), Dn in Q. unfold on_the_way in Q at 1. cbn in Q. rewrite app_nil_r in Q. exact Q.
  Qed.
  Theorem C78_multi_nothing_missed :
    o = SubscribeMulti k depth ->
    kept_multi cl2 id -> only_topic kkind k (cl1 ++ LSub o :: cl2) ->
    never_lagged cl2 es2 id \/ ((forall d', ~ In (LSub (SubscribeMulti k d')) cl1) /\ keeps_up_multi cl2 es2 k id depth) ->
    exists new waiting,
      cs_trace c = cs_trace c1 ++ new /\ (forall w h p r, In (EvSend w h p r) new -> r = TxOk) /\
      given_multi cl2 es2 id ++ waiting ++ on_the_way k (down c) = on_the_way k (down c1) ++ messages enc new k /\
      (found_empty_multi cl2 es2 id -> (forall l, c_own_step l = true -> c_step l c = None) ->
         given_multi cl2 es2 id = on_the_way k (down c1) ++ messages enc new k).
  Proof.
    intros Eo Hk Ho Hp. destruct miss_runs as (net & l1 & l2 & R1 & Rs & R2 & Kd & Do & Sr & Ok & Tr). rewrite Eo in Rs, Ho.
    destruct (C75_multi_nothing_missed std net can_spawn kkind spawn_ctxt d enc task bg cfg eps tin tout ea ta Hdisp Hdev Hkk Hhand ctx0 k depth id l1 l2 _ _ _ _ _ _ _ R1 R2 Hlab1 Hlab2 Sr Kd Rs Hk Ho Hp)
      as (_ & _ & new & waiting & T & _ & Q & Z). specialize (Q Do). exists new, waiting. split; [exact T|]. split.
    { intros w h p r Hi. apply (Ok w h p r). unfold cs_trace. rewrite T. apply in_app_iff. auto. }
    split; [exact Q|]. intros Fe Hrest.
    destruct (a_then std can_spawn kkind spawn_ctxt d enc task cfg net _ _ _ _ _ _ _ _ _ R1 (proj1 (a_then std can_spawn kkind spawn_ctxt d enc task cfg net _ _ _ _ _ _ _ _ _ Rs R2))) as [Ra _].
    pose proof (a_client_run std can_spawn kkind spawn_ctxt d enc task cfg _ _ _ _ _ _ Ra) as Rc. change (y_client Val Ctx SCtx (a_sys Val Ctx SCtx (asys_new Val Ctx SCtx bg ctx0))) with client_new in Rc. fold (cs_client c) in Rc.
    destruct (rest_idle std can_spawn kkind spawn_ctxt d enc task cfg cap_up cap_down buf c (reach_finv _ _ _ _ Rc) (reach_cinv _ _ _ _ Rc) Hrest Halive) as (_ & B & Dn & _).
    rewrite (Z Fe), Dn in Q. unfold on_the_way in Q at 1. cbn in Q. rewrite app_nil_r in Q. exact Q.
  Qed.
End Miss.
Print Assumptions C78_bounded.
Print Assumptions C78_as_over_a_link.
Print Assumptions C78_told_last.
Print Assumptions C78_own_steps_end.
Print Assumptions C78_no_deadlock.
Print Assumptions C78_stop.
Print Assumptions C78_closed.
Print Assumptions C78_reply_is_the_answer.
Print Assumptions C78_every_run_was_called.
Print Assumptions C78_given_was_sent.
Print Assumptions C78_given_multi_was_sent.
Print Assumptions C78_every_call_returns_partial.
Print Assumptions C78_every_call_is_answered_partial.
Print Assumptions C78_nothing_missed.
Print Assumptions C78_multi_nothing_missed.
