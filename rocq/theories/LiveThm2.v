(** A concrete history for the theorems of LiveThm.v, and why they ask for
    subscriptions that are apart from the error key. *)
From Coq Require Import NArith List Bool Arith Lia.
From Verif Require Import KeyModel HeaderModel KeySpec HeaderSpec MinKeyModel MinKeySpec
  SchemaModel MacroModel PostcardModel DispatchModel DispatchSpec DispatchThm SubModel SubSpec ClientModel ClientSpec ClientThm4.
From Verif Require Import DispatchModel DispatchSpec SystemModel SystemSpec SystemProof SystemThm SystemThm2 LiveSpec LiveProof LiveThm.
Import ListNotations.

(** A state in which nothing is left to do. *)
Lemma nothing_to_do {Val Ctx SCtx} std net can_spawn kkind spawn_ctxt (d : Dispatcher Val Ctx) enc task cfg (s : Sys Val Ctx SCtx) :
  y_up _ _ _ s = [] -> y_down _ _ _ s = [] -> Forall (fun p => p = HRet tt) (y_tasks _ _ _ s) ->
  Forall (fun q => rq_pc q = PEnded \/ exists kk, rq_pc q = PSent kk /\ rq_ok q = None /\ rq_err q = None) (c_reqs (y_client _ _ _ s)) ->
  Forall (fun p => p = None) (c_pubs (y_client _ _ _ s)) -> c_out (y_client _ _ _ s) = [] -> c_sending (y_client _ _ _ s) = None ->
  c_offer (y_client _ _ _ s) = None -> s_blocked (c_subs (y_client _ _ _ s)) = None -> c_stopped (y_client _ _ _ s) = false ->
  forall l, own_step l = true -> sys_step Val Ctx SCtx std net can_spawn kkind spawn_ctxt d enc task cfg l s = None.
Proof.
  intros Hu Hd Ht Hr Hp Ho Hs Hf Hb Hc l Hl. rewrite Forall_forall in Ht, Hr, Hp.
  assert (N0 : forall A (i : nat), @nth_error A [] i = None) by (intros A []; reflexivity).
  assert (Rq : forall r q, nth_error (c_reqs (y_client _ _ _ s)) r = Some q -> rq_pc q = PEnded \/ exists kk, rq_pc q = PSent kk /\ rq_ok q = None /\ rq_err q = None).
  { intros r q Hq. apply Hr. eapply nth_error_In; eauto. }
  destruct l as [l|i|i|i|i|i|i n|]; try discriminate Hl; cbn [sys_step].
  - enough (E : step cfg l (y_client _ _ _ s) = None) by (rewrite E; destruct l; reflexivity).
    destruct l; try discriminate Hl; cbn [step sub_step]; rewrite ?Ho, ?Hs, ?Hf, ?Hc; try reflexivity;
      try (destruct (nth_error (c_reqs (y_client _ _ _ s)) r) as [q|] eqn:Hq; [|reflexivity];
           destruct (Rq _ _ Hq) as [->|(kk & -> & E1 & E2)]; rewrite ?E1, ?E2; reflexivity);
      try (destruct (nth_error (c_pubs (y_client _ _ _ s)) i) as [[f|]|] eqn:Hi; try reflexivity;
           apply nth_error_In in Hi; apply Hp in Hi; discriminate).
    unfold unblock. rewrite Hb. destruct (c_in_alive (y_client _ _ _ s)); reflexivity.
  - rewrite Hd, N0. reflexivity.
  - rewrite Hu, N0. destruct (y_serving _ _ _ s); reflexivity.
  - destruct (nth_error (y_tasks _ _ _ s) i) as [p|] eqn:Hi; [|reflexivity]. apply nth_error_In in Hi. rewrite (Ht _ Hi). reflexivity.
Qed.
Ltac at_rest_tac := apply nothing_to_do; try reflexivity; repeat (apply Forall_cons; [first [reflexivity | left; reflexivity | right; eexists; repeat split; reflexivity]|]); apply Forall_nil.

(** The history of SystemThm2.v, with a subscription to topic 7 and nothing lost: the
    server takes the frames in a different order, and the publication of the handler is
    delivered to the subscription. *)
Definition l_history : list SysLabel :=
  map SClient ([LSub (SubscribeExclusive (xk 7) 4);
                LRequest (xk 10) (xk 11) [5%N]; LRequest (xk 12) (xk 13) [6%N]; LRequest (xk 10) (xk 11) [1%N; 2%N];
                LPublish (MkFrame (MkHeader (VKey8 (xk 20)) (Seq1 2)) [9%N])] ++
               y_out 0 ++ y_out 1 ++ y_out 2 ++ [LPubSend 0; LOutPop; LOutSent]) ++
  [SServe 1; SServe 0; SServe 0; SServe 0; STask 0;
   SRecv 1; SClient (LWake (Some 5)); SClient (LTakeErr 2); SRecv 1;
   SRecv 1; SClient (LWake (Some 2)); SClient (LTakeOk 1);
   SRecv 0; SClient (LWake (Some 0)); SClient (LTakeOk 0)].

Example C70_ex :
  config_ok x_eps x_tin x_tout x_ea x_ta /\ define_dispatch N N x_eps x_tin x_tout x_ea x_ta = Done x_disp /\
  device_ok x_std x_eps x_tout x_ea /\ handlers_ok x_std x_tout x_ea x_ta s_task [] /\
  klen (d_kind _ _ x_disp) <= klen KK1 /\ cfg_err_key s_cfg = error_key x_std /\
  tasks_answer x_std x_ea s_task /\ 0 < cfg_depth s_cfg /\
  ~ In (compact (klen KK1) (k8_bytes (error_key x_std)))
       (map (fun k => compact (klen KK1) (k8_bytes k)) (map ep_resp (em_endpoints x_eps))) /\
  lossless l_history /\
  exists s cl es, s_run l_history s_new = Some (s, cl, es) /\
    Forall (label_ok x_eps x_tin) cl /\ (N.of_nat (typed cl) <= 2 ^ 32)%N /\
    subscriptions_apart KK1 x_std x_eps cl /\ y_serving _ _ _ s = true /\
    (forall l, own_step l = true ->
       sys_step N N N x_std x_net (fun _ _ => true) KK1 (fun c => (c, c)) x_disp s_enc s_task s_cfg l s = None) /\
    (forall l, In l cl -> l <> LClose /\ (forall b, l <> LOutFail b) /\ l <> LInFail) /\
    length (issued 0 cl) = 3 /\
    results es = [(2, GotError (y_frame 6 2 [255%N])); (1, GotReply (y_frame 13 1 [12%N])); (0, GotReply (y_frame 11 0 [5%N]))].
Proof.
  destruct x_config as (C & _ & E). destruct s_device as (D1 & D2).
  split; [exact C|]. split; [exact E|]. split; [exact D1|]. split; [exact D2|]. split; [cbn; lia|]. split; [reflexivity|].
  split.
  { intros a sc h v [<-|[<-|[]]] F; [|discriminate]. unfold s_task. apply ss_now. split; auto.
    destruct (v <=? 100)%N; [left|right]; reflexivity. }
  split; [cbn; lia|]. split; [vm_compute; intuition discriminate|].
  split. { intros l Hl. vm_compute in Hl. repeat (destruct Hl as [<-|Hl]; [exact Logic.I|]). destruct Hl. }
  destruct (s_run l_history s_new) as [[[s cl] es]|] eqn:R; [|vm_compute in R; discriminate].
  exists s, cl, es. split; [reflexivity|].
  vm_compute in R. injection R as <- <- <-. split.
  { repeat (apply Forall_cons; [cbn; auto|]); try apply Forall_nil.
    - exists [117%N]. cbn. auto.
    - exists [118%N]. cbn. auto.
    - exists [117%N]. cbn. auto.
    - exists (xk 20). split; [cbn; auto|]. split; [reflexivity|]. lia. }
  split; [vm_compute; discriminate|].
  split. { intros k k' [<-|[]] Hk. cbn in Hk. repeat (destruct Hk as [<-|Hk]; [vm_compute; discriminate|]). destruct Hk. }
  split; [reflexivity|]. split; [at_rest_tac|].
  split. { intros l Hl. repeat (destruct Hl as [<-|Hl]; [repeat split; discriminate|]). destruct Hl. }
  split; reflexivity.
Qed.

(** The same, but the third request is lost on its way, and the reply to the second: the
    first still returns, and the others wait because of what was lost. *)
Definition l_lossy : list SysLabel :=
  map SClient ([LSub (SubscribeExclusive (xk 7) 4);
                LRequest (xk 10) (xk 11) [5%N]; LRequest (xk 12) (xk 13) [6%N]; LRequest (xk 10) (xk 11) [1%N; 2%N]] ++
               y_out 0 ++ y_out 1 ++ y_out 2) ++
  [SLoseUp 2; SServe 1; SServe 0; STask 0; SLoseDown 1; SRecv 0; SClient (LWake (Some 0)); SClient (LTakeOk 0)].

Example C70_lossy_ex :
  exists s cl es, s_run l_lossy s_new = Some (s, cl, es) /\
    Forall (label_ok x_eps x_tin) cl /\ (N.of_nat (typed cl) <= 2 ^ 32)%N /\
    subscriptions_apart KK1 x_std x_eps cl /\ y_serving _ _ _ s = true /\
    (forall l, own_step l = true ->
       sys_step N N N x_std x_net (fun _ _ => true) KK1 (fun c => (c, c)) x_disp s_enc s_task s_cfg l s = None) /\
    map snd (issued 0 cl) = [xk 11; xk 13; xk 11] /\
    results es = [(0, GotReply (y_frame 11 0 [5%N]))] /\
    (exists f, nth_error (issued 0 cl) 2 = Some (f, xk 11) /\
       lost_up (sys_step N N N x_std x_net (fun _ _ => true) KK1 (fun c => (c, c)) x_disp s_enc s_task s_cfg) l_lossy s_new =
         [rpc_to_bytes (shrink_frame KK8 f)]) /\
    lost_down (sys_step N N N x_std x_net (fun _ _ => true) KK1 (fun c => (c, c)) x_disp s_enc s_task s_cfg) l_lossy s_new =
      [rpc_to_bytes (MkFrame (out_header KK1 (xk 13) (Seq4 1)) [12%N])].
Proof.
  destruct (s_run l_lossy s_new) as [[[s cl] es]|] eqn:R; [|vm_compute in R; discriminate].
  exists s, cl, es. split; [reflexivity|].
  vm_compute in R. injection R as <- <- <-. split.
  { repeat (apply Forall_cons; [cbn; auto|]); try apply Forall_nil.
    - exists [117%N]. cbn. auto.
    - exists [118%N]. cbn. auto.
    - exists [117%N]. cbn. auto. }
  split; [vm_compute; discriminate|].
  split. { intros k k' [<-|[]] Hk. cbn in Hk. repeat (destruct Hk as [<-|Hk]; [vm_compute; discriminate|]). destruct Hk. }
  split; [reflexivity|]. split; [at_rest_tac|]. split; [reflexivity|]. split; [reflexivity|].
  split; [eexists; split; [reflexivity|vm_compute; reflexivity]|vm_compute; reflexivity].
Qed.

(** ** C70 is false for subscriptions that look like the error key *)

(** An error key that looks like the topic [xk 7] at the one byte that the library
    computes for these tables. *)
Definition l_std : StdKeys := MkStd (xk 1) (xk 2) (xk 3) (xk 4) (xk 5) (K8 7 1 1 0 0 0 0 0) (xk 7).
Definition l_cfg : Config := MkConfig (error_key l_std) 8 false SK4.
Definition l_task (n : nat) (sc : N) (h : VarHeader) (v : N) : HProg N unit :=
  HSend (xk 13) (hdr_seq h) (PVal v) (fun _ => HRet tt).
(** The user subscribes to topic 7 and makes a request that the server refuses: the
    error is delivered to the subscription. *)
Definition l_history2 : list SysLabel :=
  map SClient ([LSub (SubscribeExclusive (xk 7) 4); LRequest (xk 10) (xk 11) [1%N; 2%N]] ++ y_out 0) ++ [SServe 0; SRecv 0].

Theorem C70_error_given_to_a_subscription_refuted :
  exists std eps tin tout (ea : list (EpArm N N)) ta d kk cfg ls s cl es task,
    config_ok eps tin tout ea ta /\ define_dispatch N N eps tin tout ea ta = Done d /\ d_kind _ _ d = kk /\
    device_ok std eps tout ea /\ handlers_ok std tout ea ta task [] /\ tasks_answer std ea task /\ k8_ok (error_key std) /\
    ~ In (error_key std) (map ep_resp (em_endpoints eps) ++ map snd (tm_topics tout)) /\
    cfg_err_key cfg = error_key std /\ 0 < cfg_depth cfg /\ lossless ls /\
    sys_run N N N std x_net (fun _ _ => true) kk (fun c => (c, c)) d s_enc task cfg ls s_new = Some (s, cl, es) /\
    Forall (label_ok eps tin) cl /\ y_serving _ _ _ s = true /\ is_closed (y_client _ _ _ s) = false /\
    (forall l, own_step l = true -> sys_step N N N std x_net (fun _ _ => true) kk (fun c => (c, c)) d s_enc task cfg l s = None) /\
    (forall k, In k (topics_subscribed cl) -> In k (map snd (tm_topics tout))) /\
    length (issued 0 cl) = 1 /\ ~ In (LCancel 0) cl /\ results es = [] /\
    (exists e r, y_trace _ _ _ s = [EvSend ByDispatcher (out_header kk (error_key std) (Seq4 0)) (PError e) r]).
Proof.
  exists l_std, x_eps, x_tin, x_tout, x_ea, x_ta, x_disp, KK1, l_cfg, l_history2.
  destruct (sys_run N N N l_std x_net (fun _ _ => true) KK1 (fun c => (c, c)) x_disp s_enc l_task l_cfg l_history2 s_new) as [[[s cl] es]|] eqn:R;
    [|vm_compute in R; discriminate].
  exists s, cl, es, l_task. destruct x_config as (C & _ & E). destruct s_device as (D1 & (H1 & H2 & _ & _)).
  split; [exact C|]. split; [exact E|]. split; [reflexivity|]. split; [exact D1|].
  split.
  { split; [exact H1|]. split; [exact H2|]. split; [|split].
    - intros a sc h v key seq p [<-|[<-|[]]] F M; [|discriminate]. right. unfold l_task in M. cbn in M |- *.
      inversion M; subst; [|(match goal with H : may_send (HRet _) _ _ _ |- _ => inversion H end)]. auto.
    - intros a sc h v key seq p [<-|[]] F M. discriminate.
    - intros t key seq p []. }
  split. { intros a sc h v [<-|[<-|[]]] F; [|discriminate]. unfold l_task. apply ss_now. split; auto. }
  split. { vm_compute. repeat constructor. }
  split; [vm_compute; intuition discriminate|]. split; [reflexivity|]. split; [cbn; lia|].
  split. { intros l Hl. vm_compute in Hl. repeat (destruct Hl as [<-|Hl]; [exact Logic.I|]). destruct Hl. }
  split; [exact R|]. vm_compute in R. injection R as <- <- <-.
  split. { repeat (apply Forall_cons; [cbn; auto|]); try apply Forall_nil. exists [117%N]. cbn. auto. }
  split; [reflexivity|]. split; [reflexivity|]. split; [at_rest_tac|].
  split. { intros k [<-|[]]. cbn. auto. }
  split; [reflexivity|]. split. { intros Hl. repeat (destruct Hl as [Hl|Hl]; [discriminate|]). destruct Hl. }
  split; [reflexivity|]. eexists _, _. reflexivity.
Qed.
Print Assumptions C70_error_given_to_a_subscription_refuted.
