(** C86: a concrete device without the standard tables, and the refutations of the claim
    without its condition. *)
From Coq Require Import NArith List Bool Arith Lia.
From Verif Require Import KeyModel HeaderModel KeySpec HeaderSpec KeyProof MinKeyModel MinKeySpec MinKeyProof
  SchemaModel MacroModel PostcardModel PostcardProof DispatchModel DispatchSpec DispatchProof DispatchThm
  SubModel ClientModel ClientSpec ClientThm4.
From Verif Require Import DispatchModel DispatchSpec SystemModel SystemSpec SystemProof SystemThm SystemThm2 OmitThm.
Import ListNotations.

Ltac not_in X := vm_compute in X; repeat (destruct X as [X|X]; [discriminate X|]); exact X.
Fixpoint nodupb (l : list (list N)) : bool :=
  match l with [] => true | x :: tl => negb (existsb (fun y => if list_eq_dec N.eq_dec x y then true else false) tl) && nodupb tl end.
Lemma nodupb_ok l : nodupb l = true -> NoDup l.
Proof.
  induction l as [|x l IH]; cbn [nodupb]; intros H; constructor; apply andb_true_iff in H as [H1 H2]; auto.
  intros Hx. apply negb_true_iff in H1. assert (X : existsb (fun y => if list_eq_dec N.eq_dec x y then true else false) l = true).
  { apply existsb_exists. exists x. split; auto. destruct (list_eq_dec N.eq_dec x x); auto. }
  congruence.
Qed.
Lemma nodup_keys l : nodupb (map k8_bytes l) = true -> NoDup l.
Proof. intros H. apply nodupb_ok in H. now apply NoDup_map_inv in H. Qed.

(** One endpoint of its own, no standard ones; the topics are those of DispatchThm.v,
    with the standard ones. *)
Definition o_disp : Dispatcher N N :=
  Eval vm_compute in
  match define_dispatch N N x_eps_nostd x_tin x_tout [x_arm] x_ta with Done d => d | Panicked => MkDispatcher N N KK8 [] [] (MkMap [] [] [] [] KK8) end.
Lemma o_conf : config_ok x_eps_nostd x_tin x_tout [x_arm] x_ta /\
  define_dispatch N N x_eps_nostd x_tin x_tout [x_arm] x_ta = Done o_disp /\
  (forall a, In a [x_arm] -> is_endpoint x_eps_nostd (ea_req _ _ a) (ea_resp _ _ a)) /\
  handlers_ok x_std x_tout [x_arm] x_ta s_task [].
Proof.
  split. { unfold config_ok, keys_ok. repeat split; repeat constructor; cbn; repeat constructor. }
  split; [vm_compute; reflexivity|].
  split. { intros a [<-|[]]. exists [117%N]. cbn. auto. }
  destruct s_device as (_ & H1 & H2 & H3 & H4 & H5).
  assert (I : forall a, In a [x_arm] -> In a x_ea) by (intros a [<-|[]]; right; left; reflexivity).
  split; [|split; [|split; [|split]]]; eauto.
Qed.

Definition o_run := sys_run N N N x_std x_net (fun _ _ => true) KK1 (fun c => (c, c)) o_disp s_enc s_task s_cfg.
Definition o_history : list SysLabel :=
  map SClient ([LRequest (xk 10) (xk 11) [5%N]; LRequest (xk 1) (xk 2) [9%N]] ++ y_out 0 ++ y_out 1) ++
  [SServe 1; SServe 0; SRecv 0; SClient (LWake (Some 2)); SClient (LTakeOk 1);
   SRecv 0; SClient (LWake (Some 0)); SClient (LTakeOk 0)].
(** All hypotheses of C86 hold; the device's own endpoint answers 5, the standard ping
    echoes 9. *)
Example C86_ex :
  config_ok x_eps_nostd x_tin x_tout [x_arm] x_ta /\
  define_dispatch N N x_eps_nostd x_tin x_tout [x_arm] x_ta = Done o_disp /\
  (forall a, In a [x_arm] -> is_endpoint x_eps_nostd (ea_req _ _ a) (ea_resp _ _ a)) /\
  handlers_ok x_std x_tout [x_arm] x_ta s_task [] /\
  is_topic_out x_tout (schema_topic x_std) /\
  distinct_at (klen (d_kind _ _ o_disp)) (ping_req x_std :: schemas_req x_std :: map ep_req (em_endpoints x_eps_nostd) ++ map snd (tm_topics x_tin)) /\
  distinct_at (klen (d_kind _ _ o_disp)) (ping_resp x_std :: schemas_resp x_std :: map ep_resp (em_endpoints x_eps_nostd) ++ map snd (tm_topics x_tout)) /\
  klen (d_kind _ _ o_disp) <= klen KK1 /\
  ~ In (compact (klen KK1) (k8_bytes (error_key x_std)))
       (map (fun k => compact (klen KK1) (k8_bytes k)) (ping_resp x_std :: schemas_resp x_std :: map ep_resp (em_endpoints x_eps_nostd))) /\
  exists s cl es, o_run o_history s_new = Some (s, cl, es) /\
    Forall (label_ok (all_eps x_std x_eps_nostd) x_tin) cl /\ (N.of_nat (typed cl) <= 2 ^ 32)%N /\ uncut o_history /\
    results es = [(1, GotReply (y_frame 2 1 [9%N])); (0, GotReply (y_frame 11 0 [5%N]))].
Proof.
  destruct o_conf as (C & E & O & H). do 4 (split; [assumption|]). split; [cbn; auto|].
  split. { apply nodupb_ok. vm_compute. reflexivity. }
  split. { apply nodupb_ok. vm_compute. reflexivity. }
  split; [cbn; lia|]. split; [intros X; not_in X|].
  destruct (o_run o_history s_new) as [[[s cl] es]|] eqn:R; [|vm_compute in R; discriminate].
  exists s, cl, es. split; [reflexivity|]. vm_compute in R. injection R as _ <- <-. split.
  { repeat (apply Forall_cons; [cbn; auto|]); try apply Forall_nil.
    - exists [117%N]. cbn. auto.
    - exists []. cbn. auto. }
  split; [vm_compute; discriminate|]. split; [|reflexivity].
  intros i n X. not_in X.
Qed.

(** ** Without the condition the claim is false *)

(** At one byte, the length the library chooses for these tables, the ping key below
    looks like that of the device's own endpoint.  The keys themselves all differ. *)
Definition o_std : StdKeys := MkStd (K8 0 0 0 0 0 0 0 10) (xk 2) (xk 3) (xk 4) (xk 5) (xk 6) (xk 7).
Definition o_arm : EpArm N N := MkEpArm N N (xk 10) (xk 11) x_deser Blocking 7 (fun ctx _ v => HRet (ctx, v + 1))%N.
Definition o_disp2 : Dispatcher N N :=
  Eval vm_compute in
  match define_dispatch N N x_eps_nostd x_tin x_tout [o_arm] x_ta with Done d => d | Panicked => MkDispatcher N N KK8 [] [] (MkMap [] [] [] [] KK8) end.
Lemma o_conf2 std : error_key std = xk 6 ->
  config_ok x_eps_nostd x_tin x_tout [o_arm] x_ta /\
  define_dispatch N N x_eps_nostd x_tin x_tout [o_arm] x_ta = Done o_disp2 /\
  handlers_ok std x_tout [o_arm] x_ta s_task [].
Proof.
  intros Ee. split. { unfold config_ok, keys_ok. repeat split; repeat constructor; cbn; repeat constructor. }
  split; [vm_compute; reflexivity|].
  destruct s_device as (_ & H1 & H2 & H3 & H4 & H5).
  split; [|split; [|split; [|split]]]; eauto.
  - intros a ctx h v key seq p [<-|[]] M. cbn in M. inversion M.
  - intros a sc h v key seq p [<-|[]] F. discriminate F.
Qed.
Definition o_history2 : list SysLabel :=
  map SClient (LRequest (xk 10) (xk 11) [5%N] :: y_out 0) ++ [SServe 0; SRecv 0; SClient (LWake None)].

(** A call to the device's own endpoint, for which there is a handler, is received and
    dealt with by the server, and the client has received all the server sent; yet the
    handler has not run, and the call, which nothing will ever answer, still waits. *)
Theorem C86_never_answered_refuted :
  exists std eps tin tout (ea : list (EpArm N N)) ta d kk ls s cl es req resp body,
    config_ok eps tin tout ea ta /\ define_dispatch N N eps tin tout ea ta = Done d /\ d_kind _ _ d = kk /\
    is_topic_out tout (schema_topic std) /\ handlers_ok std tout ea ta s_task [] /\
    (exists a v, In a ea /\ ea_req _ _ a = req /\ ea_resp _ _ a = resp /\ ea_deser _ _ a body = Some v) /\
    is_endpoint eps req resp /\
    NoDup (ping_req std :: schemas_req std :: map ep_req (em_endpoints eps) ++ map snd (tm_topics tin)) /\
    NoDup (ping_resp std :: schemas_resp std :: error_key std :: map ep_resp (em_endpoints eps) ++ map snd (tm_topics tout)) /\
    sys_run N N N std x_net (fun _ _ => true) kk (fun c => (c, c)) d s_enc s_task s_cfg ls s_new = Some (s, cl, es) /\
    uncut ls /\ (forall i, ~ In (SLoseUp i) ls /\ ~ In (SLoseDown i) ls) /\
    hd_error cl = Some (LRequest req resp body) /\
    wire es = [rpc_to_bytes (MkFrame (MkHeader (VKey8 req) (Seq4 0)) body)] /\
    y_up _ _ _ s = [] /\ y_down _ _ _ s = [] /\ y_tasks _ _ _ s = [] /\
    y_trace _ _ _ s = [EvSend ByDispatcher (out_header kk (ping_resp std) (Seq4 0)) (PPing 5) TxOk] /\
    results es = [].
Proof.
  destruct (o_conf2 o_std eq_refl) as (C & E & H).
  destruct (sys_run N N N o_std x_net (fun _ _ => true) KK1 (fun c => (c, c)) o_disp2 s_enc s_task s_cfg o_history2 s_new)
    as [[[s cl] es]|] eqn:R; [|vm_compute in R; discriminate].
  exists o_std, x_eps_nostd, x_tin, x_tout, [o_arm], x_ta, o_disp2, KK1, o_history2, s, cl, es, (xk 10), (xk 11), [5%N].
  split; [exact C|]. split; [exact E|]. split; [reflexivity|]. split; [cbn; auto|]. split; [exact H|].
  split; [exists o_arm, 5%N; cbn; auto|]. split; [exists [117%N]; cbn; auto|].
  split; [apply nodup_keys; vm_compute; reflexivity|]. split; [apply nodup_keys; vm_compute; reflexivity|].
  split; [exact R|]. split; [intros i n X; not_in X|].
  split; [intros i; split; intros X; not_in X|].
  vm_compute in R. injection R as <- <- <-. repeat split; reflexivity.
Qed.
Print Assumptions C86_never_answered_refuted.

(** If the response keys look alike as well, the call returns the answer of ping. *)
Definition o_std2 : StdKeys := MkStd (K8 0 0 0 0 0 0 0 10) (K8 0 0 0 0 0 0 0 11) (xk 3) (xk 4) (xk 5) (xk 6) (xk 7).
Definition o_history3 : list SysLabel :=
  map SClient (LRequest (xk 10) (xk 11) [5%N] :: y_out 0) ++ [SServe 0; SRecv 0; SClient (LWake (Some 0)); SClient (LTakeOk 0)].
Theorem C86_wrong_answer_refuted :
  exists std eps tin tout (ea : list (EpArm N N)) ta d kk ls s cl es req resp body f,
    config_ok eps tin tout ea ta /\ define_dispatch N N eps tin tout ea ta = Done d /\ d_kind _ _ d = kk /\
    is_topic_out tout (schema_topic std) /\ handlers_ok std tout ea ta s_task [] /\
    is_endpoint eps req resp /\
    NoDup (ping_req std :: schemas_req std :: map ep_req (em_endpoints eps) ++ map snd (tm_topics tin)) /\
    NoDup (ping_resp std :: schemas_resp std :: error_key std :: map ep_resp (em_endpoints eps) ++ map snd (tm_topics tout)) /\
    sys_run N N N std x_net (fun _ _ => true) kk (fun c => (c, c)) d s_enc s_task s_cfg ls s_new = Some (s, cl, es) /\
    uncut ls /\
    issued 0 cl = [(MkFrame (MkHeader (VKey8 req) (Seq4 0)) body, resp)] /\
    In (0, GotReply f) (results es) /\
    (* what the endpoint's handler answers to this request is something else, and it has not run *)
    (exists a v, In a ea /\ ea_req _ _ a = req /\ ea_deser _ _ a body = Some v /\
       ea_flavor _ _ a = Blocking /\ (forall ctx h, exists ctx' w, ea_run _ _ a ctx h v = HRet (ctx', w) /\ f_body f <> s_enc (PVal w))) /\
    invocations (y_trace _ _ _ s) = [].
Proof.
  destruct (o_conf2 o_std2 eq_refl) as (C & E & H).
  destruct (sys_run N N N o_std2 x_net (fun _ _ => true) KK1 (fun c => (c, c)) o_disp2 s_enc s_task s_cfg o_history3 s_new)
    as [[[s cl] es]|] eqn:R; [|vm_compute in R; discriminate].
  exists o_std2, x_eps_nostd, x_tin, x_tout, [o_arm], x_ta, o_disp2, KK1, o_history3, s, cl, es, (xk 10), (xk 11), [5%N], (y_frame 11 0 [5%N]).
  split; [exact C|]. split; [exact E|]. split; [reflexivity|]. split; [cbn; auto|]. split; [exact H|].
  split; [exists [117%N]; cbn; auto|].
  split; [apply nodup_keys; vm_compute; reflexivity|]. split; [apply nodup_keys; vm_compute; reflexivity|].
  split; [exact R|]. split; [intros i n X; not_in X|].
  vm_compute in R. injection R as <- <- <-. split; [reflexivity|]. split; [cbn; auto|]. split; [|reflexivity].
  exists o_arm, 5%N. split; [cbn; auto|]. split; [reflexivity|]. split; [reflexivity|]. split; [reflexivity|].
  intros ctx h. exists ctx, 6%N. split; [reflexivity|]. vm_compute. discriminate.
Qed.
Print Assumptions C86_wrong_answer_refuted.
