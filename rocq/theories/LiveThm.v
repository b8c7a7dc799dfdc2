(** Calls return: a request that is not dropped, over a link that loses nothing, to a
    server that keeps serving, gets an answer. *)
From Coq Require Import NArith List Bool Arith Lia.
From Verif Require Import KeyModel HeaderModel KeySpec HeaderSpec MinKeyModel MinKeySpec
  SchemaModel MacroModel PostcardModel DispatchModel DispatchSpec SubModel SubSpec ClientModel ClientSpec.
From Verif Require Import DispatchProof ClientProof ClientMore ClientHist ClientThm ClientThm2 ClientThm3 ClientThm4 DispatchModel DispatchSpec SystemModel SystemSpec SystemProof SystemThm
  LiveSpec LiveProof.
Import ListNotations.

(** Without closing and without failures a client stays open. *)
Lemma stays_open cfg cl c es : run cfg cl client_new = Some (c, es) ->
  (forall l, In l cl -> l <> LClose /\ (forall b, l <> LOutFail b) /\ l <> LInFail) -> c_stopped c = false /\ forall r, ~ In (r, Closed) (results es).
Proof.
  revert cl c es. apply (run_ind cfg (fun cl c es => (forall l, In l cl -> l <> LClose /\ (forall b, l <> LOutFail b) /\ l <> LInFail) ->
    c_stopped c = false /\ forall r, ~ In (r, Closed) (results es))).
  - intros _. split; [reflexivity|]. intros r [].
  - intros ls c es l c' e Hr IH Hs Hl. destruct IH as (S & N0); [intros x Hx; apply Hl; apply in_app_iff; auto|].
    destruct (Hl l) as (L1 & L2 & L3); [apply in_app_iff; cbn; auto|].
    assert (S' : c_stopped c' = false).
    { destruct l; cbn [step] in Hs; try congruence; unfold out_gone, in_gone in Hs; rewrite ?S in Hs; cbn [andb] in Hs; try discriminate;
        repeat match type of Hs with
        | context [match ?x with _ => _ end] => lazymatch x with context [match _ with _ => _ end] => fail | _ => destruct x; try discriminate end
        end; injection Hs as <- <-; solve [exact S | reflexivity | unfold adopt; destruct (negb _); exact S]. }
    split; auto. intros r. rewrite results_app, in_app_iff. intros [X|X]; [exact (N0 _ X)|].
    rewrite (step_results _ _ _ _ _ Hs) in X. destruct (result_of e) as [[r1 res]|] eqn:E; [|destruct X]. destruct X as [X|[]]. injection X as -> ->.
    rewrite (closed_stopped _ _ _ _ _ _ Hs (reach_finv _ _ _ _ Hr) E) in S'. discriminate.
Qed.

Lemma lossless_lost {Val Ctx SCtx} (stepping : SysLabel -> Sys Val Ctx SCtx -> option (Sys Val Ctx SCtx)) ls : forall s, lossless ls ->
  lost_up stepping ls s = [] /\ lost_down stepping ls s = [].
Proof.
  induction ls as [|l ls IH]; intros s H; cbn [lost_up lost_down]; auto.
  assert (loses_up l s = [] /\ loses_down l s = []) as [-> ->].
  { pose proof (H l (or_introl eq_refl)) as X. destruct l; auto; destruct X. }
  destruct (stepping l s); auto. apply IH. intros x Hx. apply H. right. exact Hx.
Qed.

Section S.
  Context {Val Ctx SCtx : Type}.
  Variable std : StdKeys.
  Variable net : Trace Val SCtx -> VarHeader -> Payload Val -> TxRes.
  Variable can_spawn : Trace Val SCtx -> nat -> bool.
  Variable kkind : VarKeyKind.
  Variable spawn_ctxt : Ctx -> Ctx * SCtx.
  Variable enc : Payload Val -> list N.
  Variable task : nat -> SCtx -> VarHeader -> Val -> HProg Val unit.
  Variable bg : list (HProg Val unit).
  Variable cfg : Config.
  Variable d : Dispatcher Val Ctx.

  Notation sys_step := (sys_step Val Ctx SCtx std net can_spawn kkind spawn_ctxt d enc task cfg).
  Notation sys_run := (sys_run Val Ctx SCtx std net can_spawn kkind spawn_ctxt d enc task cfg).
  Notation sys_new := (sys_new Val Ctx SCtx).

  (** ** C70 Calls return *)

  (** Left to itself, the system comes to rest: there is no infinite sequence of its
      own steps, from any state (in particular neither the client nor the server can
      loop over a frame or wake each other for ever). *)
  Theorem C70_own_steps_end :
    forall f : nat -> Sys Val Ctx SCtx,
      ~ (forall n, exists l, own_step l = true /\ sys_step l (f n) = Some (f (S n))).
  Proof.
    intros f H. pose proof (own_acc std net can_spawn kkind spawn_ctxt enc task cfg d (f 0)) as A.
    enough (G : forall s, Acc (by_itself std net can_spawn kkind spawn_ctxt enc task cfg d) s -> forall n, f n <> s) by exact (G _ A 0 eq_refl).
    clear A. intros s A. induction A as [s _ IH]. intros n <-. destruct (H n) as (l & Ho & Hs).
    refine (IH (f (S n)) _ (S n) eq_refl). exists l. auto.
  Qed.

  (** The server keeps serving as long as none of the frames its dispatcher sent failed
      with a closed link or a timeout. *)
  Theorem C70_keeps_serving :
    forall ctx0 ls s cl es, sys_run ls (sys_new bg ctx0) = Some (s, cl, es) ->
      (forall h p r, In (EvSend ByDispatcher h p r) (y_trace _ _ _ s) -> r <> TxErr TxConnectionClosed /\ r <> TxErr TxTimeout) ->
      y_serving _ _ _ s = true.
  Proof.
    intros ctx0. apply (sys_ind std net can_spawn kkind spawn_ctxt enc task cfg d (fun _ s _ _ =>
      (forall h p r, In (EvSend ByDispatcher h p r) (y_trace _ _ _ s) -> r <> TxErr TxConnectionClosed /\ r <> TxErr TxTimeout) ->
      y_serving _ _ _ s = true)); [reflexivity|].
    intros ls s cl es l s' _ IH Hs.
    enough (G : (forall h p r, In (EvSend ByDispatcher h p r) (y_trace _ _ _ s') -> r <> TxErr TxConnectionClosed /\ r <> TxErr TxTimeout) ->
      y_serving _ _ _ s' = true) by (destruct (client_label _ _ _ l s); auto).
    intros H. destruct l as [l|i|i|i|i|i|i n|i]; cbn [SystemModel.sys_step] in Hs.
    - destruct l; try discriminate Hs; destruct (step _ _ _) as [[c e]|]; try discriminate Hs; injection Hs as <-; auto.
    - destruct (nth_error _ _); [|discriminate]. destruct (step _ _ _) as [[c e]|]; try discriminate Hs; injection Hs as <-; auto.
    - destruct (y_serving _ _ _ s) eqn:V; [|discriminate]. destruct (nth_error _ _) as [b|]; [|discriminate].
      destruct (take_from_slice b) as [[[hdr body]|]|]; [| |discriminate]; [|injection Hs as <-; auto].
      destruct (handle _ _ _ _ _ _ _ _ _ _ _ _ _) as [[ctx res] tr] eqn:Hh. injection Hs as <-. cbn in H |- *.
      destruct (handle_last _ _ _ _ _ _ _ _ _ _ _ _ _ Hh) as (new & -> & [[_ ->]|(l & h & p & E)]); [reflexivity|].
      assert (In (h, p, res) (dispatcher_frames new)) as X by (rewrite E; apply in_app_iff; cbn; auto).
      destruct (H h p res) as (N1 & N2).
      { apply in_app_iff. right. clear - X. induction new as [|e new IHn]; [destruct X|].
        destruct e as [[] h' p' r'|? ? ?|? ? ? ? ?]; cbn in X; [destruct X as [X|X]; [injection X as -> -> ->; left; reflexivity|]|..]; right; exact (IHn X). }
      destruct res as [|[]]; congruence.
    - destruct (nth_error _ _) as [[|k0 sq p k]|]; try discriminate Hs. destruct (send_keyed _ _ _ _ _ _ _ _ _) as [r tr] eqn:E. injection Hs as <-.
      cbn in H |- *. apply IH. intros h p0 r0 Hi. apply (H h p0 r0). unfold send_keyed, tx_send in E. injection E as _ <-. apply in_app_iff. auto.
    - destruct (nth_error _ _); [|discriminate]. injection Hs as <-; auto.
    - destruct (nth_error _ _); [|discriminate]. injection Hs as <-; auto.
    - destruct (nth_error _ _); [|discriminate]. injection Hs as <-; auto.
    - injection Hs as <-; auto.
  Qed.

  Variable eps : EndpointMap.
  Variable tin tout : TopicMap.
  Variable ea : list (EpArm Val Ctx).
  Variable ta : list (TpArm Val Ctx).
  Hypothesis Hdisp : dispatcher_for eps tin tout ea ta d.
  Hypothesis Hdev : device_ok std eps tout ea.
  Hypothesis Hkk : klen (d_kind _ _ d) <= klen kkind.
  Hypothesis Hce : cfg_err_key cfg = error_key std.
  Hypothesis Hans : tasks_answer std ea task.
  Hypothesis Hdepth : 0 < cfg_depth cfg.

  Variable ctx0 : Ctx.
  Variable ls : list SysLabel.
  Variable s : Sys Val Ctx SCtx.
  Variable cl : list Label.
  Variable es : list (list Ev).
  Hypothesis Hrun : sys_run ls (sys_new bg ctx0) = Some (s, cl, es).
  Hypothesis Hlab : Forall (label_ok eps tin) cl.
  Hypothesis Hcount : (N.of_nat (typed cl) <= 2 ^ 32)%N.
  Hypothesis Hsubs : subscriptions_apart kkind std eps cl.
  Hypothesis Hserv : y_serving _ _ _ s = true.
  Hypothesis Hrest : forall l, own_step l = true -> sys_step l s = None.

  (** (Partial: without [Hsubs], that no subscription looks like the error key or a
      response key, this is false, see [C70_error_given_to_a_subscription_refuted].)
      Once it is at rest, every request that was made, and whose future was not
      dropped, has returned, unless its own frame or an answer to it was lost: whatever
      the order in which frames were carried and futures, workers and tasks were run,
      and whatever else was lost. *)
  Theorem C70_waits_because_lost_partial :
    forall r f resp, nth_error (issued 0 cl) r = Some (f, resp) -> ~ In (LCancel r) cl ->
      (exists res, In (r, res) (results es)) \/
      (exists b, In b (lost_up sys_step ls (sys_new bg ctx0)) /\ request_frame f b) \/
      (exists b, In b (lost_down sys_step ls (sys_new bg ctx0)) /\ answer_frame kkind std resp r b).
  Proof.
    intros r f resp Hr Hc.
    destruct (reach_live std net can_spawn kkind spawn_ctxt enc task bg cfg eps tin tout ea ta d Hdisp Hdev Hkk Hce Hans _ _ _ _ _ Hrun) as (Hcl & HL).
    specialize (HL Hlab Hcount Hsubs). destruct (reach_issued _ _ _ _ Hcl) as (_ & L & M).
    destruct (nth_error (c_reqs (y_client _ _ _ s)) r) as [q|] eqn:Hq.
    2: { apply nth_error_None in Hq. assert (r < length (issued 0 cl)) by (apply nth_error_Some; congruence). lia. }
    destruct (M _ _ _ Hr Hq) as [M1 M2]. cbn [fst snd] in M1, M2.
    destruct (at_rest std net can_spawn kkind spawn_ctxt enc task cfg d Hkk _ _ s HL (reach_finv _ _ _ _ Hcl) (reach_cinv _ _ _ _ Hcl) Hdepth Hserv Hrest _ _ Hq) as [Hp|(kk & Hp & X)].
    - destruct (reach_ended _ _ _ _ r Hcl) as [X|X]; [exists q; auto|contradiction|auto].
    - rewrite Hp in M2. right. destruct X as [X|(h & b & (key & seq & (A1 & A2) & ->) & X)].
      + left. rewrite M2 in X. eexists. split; [exact X|]. exists kk. reflexivity.
      + right. eexists. split; [exact X|]. exists key, b. rewrite M1 in A1. split; auto.
        destruct (reach_reqs_ok can_spawn kkind task cfg eps tin d Hkk _ _ _ Hcl Hlab Hcount _ _ Hq) as (_ & _ & _ & _ & E & _). rewrite E in A2. rewrite A2. reflexivity.
  Qed.

  (** In particular, over a link that loses nothing every such request returns. *)
  Theorem C70_every_call_returns_partial :
    lossless ls -> forall r, r < length (issued 0 cl) -> ~ In (LCancel r) cl -> exists res, In (r, res) (results es).
  Proof.
    intros Hless r Hr Hc. destruct (nth_error (issued 0 cl) r) as [[f resp]|] eqn:Hi; [|apply nth_error_None in Hi; lia].
    destruct (lossless_lost sys_step ls (sys_new bg ctx0) Hless) as [Eu Ed].
    destruct (C70_waits_because_lost_partial r f resp Hi Hc) as [X|[(b & X & _)|(b & X & _)]]; auto; [rewrite Eu in X|rewrite Ed in X]; destruct X.
  Qed.

  (** If in addition the client was not closed and no worker failed, and the error key
      differs from the response keys on the wire, the result is an answer of the
      server: the reply or a wire error. *)
  Theorem C70_every_call_is_answered_partial :
    lossless ls -> handlers_ok std tout ea ta task bg ->
    ~ In (compact (klen kkind) (k8_bytes (error_key std)))
         (map (fun k => compact (klen kkind) (k8_bytes k)) (map ep_resp (em_endpoints eps))) ->
    (forall l, In l cl -> l <> LClose /\ (forall b, l <> LOutFail b) /\ l <> LInFail) ->
    forall r, r < length (issued 0 cl) -> ~ In (LCancel r) cl ->
      exists f, In (r, GotReply f) (results es) \/ In (r, GotError f) (results es).
  Proof.
    intros Hless Hhand Herr Hopen r Hr Hc. destruct (C70_every_call_returns_partial Hless r Hr Hc) as (res & Hres).
    destruct res as [f|f| |]; eauto; exfalso.
    - exact (C50_requests_can_be_issued_partial std net can_spawn kkind spawn_ctxt enc task bg cfg eps tin tout ea ta d Hdisp Hhand _ _ _ _ _ Hrun Hlab Hcount Herr Hce r Hres).
    - destruct (reach_live std net can_spawn kkind spawn_ctxt enc task bg cfg eps tin tout ea ta d Hdisp Hdev Hkk Hce Hans _ _ _ _ _ Hrun) as (Hcl & _).
      exact (proj2 (stays_open _ _ _ _ Hcl Hopen) _ Hres).
  Qed.
End S.
Print Assumptions C70_own_steps_end.
Print Assumptions C70_keeps_serving.
Print Assumptions C70_waits_because_lost_partial.
Print Assumptions C70_every_call_returns_partial.
Print Assumptions C70_every_call_is_answered_partial.
