(** A concrete device and client for the theorems of SystemThm.v, and the
    refutations of the unrestricted C50 and C51. *)
From Coq Require Import NArith List Bool Arith Lia.
From Verif Require Import KeyModel HeaderModel KeySpec HeaderSpec MinKeyModel MinKeySpec
  SchemaModel MacroModel PostcardModel DispatchModel DispatchSpec DispatchThm SubModel SubSpec ClientModel ClientSpec ClientThm4.
From Verif Require Import DispatchModel DispatchSpec SystemModel SystemSpec SystemProof SystemThm.
Import ListNotations.

(** The device of DispatchThm.v; its spawned handler answers twice its request, and
    reports an error for requests above 100. *)
Definition s_enc (p : Payload N) : list N :=
  match p with PVal v => [v] | PPing n => [n] | PError _ => [255] | PSchemaData _ => [254] | PSchemaTotals _ => [253] end%N.
Definition s_task (n : nat) (sc : N) (h : VarHeader) (v : N) : HProg N unit :=
  HSend (if (v <=? 100)%N then xk 13 else xk 6) (hdr_seq h) (PVal (2 * v)%N) (fun _ => HRet tt).
Definition s_cfg : Config := MkConfig (xk 6) 8 false SK4.
Definition s_run := sys_run N N N x_std x_net (fun _ _ => true) KK1 (fun c => (c, c)) x_disp s_enc s_task s_cfg.
Definition s_new : Sys N N N := sys_new N N N [] 0%N.

(** Three requests (to a plain, to a spawning handler and one that cannot be
    decoded) and a publication are made; the server takes them in the order 1, 0, 2
    and the publication last. *)
Definition s_history : list SysLabel :=
  map SClient ([LRequest (xk 10) (xk 11) [5%N]; LRequest (xk 12) (xk 13) [6%N]; LRequest (xk 10) (xk 11) [1%N; 2%N];
                LPublish (MkFrame (MkHeader (VKey8 (xk 20)) (Seq1 2)) [9%N])] ++
               y_out 0 ++ y_out 1 ++ y_out 2 ++ [LPubSend 0; LOutPop; LOutSent]) ++
  [SServe 1; SServe 0; SServe 0; SServe 0; STask 0; SLoseDown 2;
   SRecv 1; SClient (LWake (Some 5)); SClient (LTakeErr 2);
   SRecv 1; SClient (LWake (Some 2)); SClient (LTakeOk 1);
   SRecv 0; SClient (LWake (Some 0)); SClient (LTakeOk 0)].

Lemma s_device : device_ok x_std x_eps x_tout x_ea /\ handlers_ok x_std x_tout x_ea x_ta s_task [].
Proof.
  split.
  - repeat split.
    + exists [112%N]. cbn. auto.
    + exists [103%N]. cbn. auto.
    + cbn. auto.
    + intros a [<-|[<-|[]]]; [exists [118%N]|exists [117%N]]; cbn; auto.
  - repeat split.
    + destruct H as [<-|[<-|[]]]; cbn in H0; inversion H0.
    + destruct H as [<-|[<-|[]]]; cbn in H0; inversion H0.
    + destruct H as [<-|[]]; cbn in H0. inversion H0; subst; cbn; auto. (match goal with H : may_send (HRet _) _ _ _ |- _ => inversion H end).
    + destruct H as [<-|[]]; cbn in H0. inversion H0; subst; cbn; [lia|]. (match goal with H : may_send (HRet _) _ _ _ |- _ => inversion H end).
    + intros a sc h v key seq p [<-|[<-|[]]] F M; [|discriminate]. right. unfold s_task in M. cbn in *.
      inversion M; subst; [|(match goal with H : may_send (HRet _) _ _ _ |- _ => inversion H end)]. destruct (v <=? 100)%N; auto.
    + destruct H as [<-|[]]. discriminate.
    + destruct H as [<-|[]]. discriminate.
    + destruct H.
    + destruct H.
Qed.
(** A background task of this device, publishing 77 and 78 on topic 7. *)
Definition s_bg : list (HProg N unit) :=
  [HSend (xk 7) (Seq1 3) (PVal 77%N) (fun _ => HSend (xk 7) (Seq1 4) (PVal 78%N) (fun _ => HRet tt))].
Lemma s_handlers_bg : handlers_ok x_std x_tout x_ea x_ta s_task s_bg.
Proof.
  destruct s_device as (_ & H1 & H2 & H3 & H4 & _). do 4 (split; [assumption|]).
  intros p key seq pl [<-|[]] M. inversion M; subst; [split; [cbn; auto|cbn; lia]|].
  match goal with H : may_send (HSend _ _ _ _) _ _ _ |- _ => inversion H; subst end; [split; [cbn; auto|cbn; lia]|].
  match goal with H : may_send (HRet _) _ _ _ |- _ => inversion H end.
Qed.

(** All hypotheses of C49, C50 and C51 hold of this device, this client and this
    history: the requests return 5, 12 and an error. *)
Example C49_C50_C51_ex :
  config_ok x_eps x_tin x_tout x_ea x_ta /\ define_dispatch N N x_eps x_tin x_tout x_ea x_ta = Done x_disp /\
  device_ok x_std x_eps x_tout x_ea /\ handlers_ok x_std x_tout x_ea x_ta s_task [] /\
  klen (d_kind _ _ x_disp) <= klen KK1 /\
  cfg_err_key s_cfg = error_key x_std /\
  ~ In (compact (klen KK1) (k8_bytes (error_key x_std)))
       (map (fun k => compact (klen KK1) (k8_bytes k)) (map ep_resp (em_endpoints x_eps))) /\
  ~ In (compact (klen KK1) (k8_bytes (error_key x_std)))
       (map (fun k => compact (klen KK1) (k8_bytes k)) (map snd (tm_topics x_tout))) /\
  exists s cl es, s_run s_history s_new = Some (s, cl, es) /\
    Forall (label_ok x_eps x_tin) cl /\ (N.of_nat (typed cl) <= 2 ^ 32)%N /\
    (forall g, In g (published cl) -> exists a, In a x_ta /\ hdr_key (f_hdr g) = VKey8 (ta_key _ _ a)) /\
    results es = [(2, GotError (y_frame 6 2 [255%N])); (1, GotReply (y_frame 13 1 [12%N])); (0, GotReply (y_frame 11 0 [5%N]))].
Proof.
  destruct x_config as (C & _ & E). destruct s_device as (D1 & D2).
  split; [exact C|]. split; [exact E|]. split; [exact D1|]. split; [exact D2|]. split; [cbn; lia|]. split; [reflexivity|].
  split; [vm_compute; intuition discriminate|]. split; [vm_compute; intuition discriminate|].
  destruct (s_run s_history s_new) as [[[s cl] es]|] eqn:R; [|vm_compute in R; discriminate].
  exists s, cl, es. split; [reflexivity|].
  vm_compute in R. injection R as _ <- <-. split.
  { repeat (apply Forall_cons; [cbn; auto|]); try apply Forall_nil.
    - exists [117%N]. cbn. auto.
    - exists [118%N]. cbn. auto.
    - exists [117%N]. cbn. auto.
    - exists (xk 20). split; [cbn; auto|]. split; [reflexivity|]. lia. }
  split; [vm_compute; discriminate|]. split; [|reflexivity].
  intros g [<-|[]]. exists x_tparm. split; [left; auto|reflexivity].
Qed.

(** The same with a reply that is cut short on its way and an empty frame: the header
    survives, the body does not, and the request returns an incomplete reply, which
    the caller then fails to deserialize. *)
Example C49_cut_ex :
  exists s cl es,
    s_run (map SClient (LRequest (xk 10) (xk 11) [5%N] :: y_out 0) ++
           [SServe 0; SCutDown 0 6; SEmptyDown 0; SRecv 0; SRecv 0; SClient (LWake (Some 0)); SClient (LTakeOk 0)]) s_new = Some (s, cl, es) /\
    Forall (label_ok x_eps x_tin) cl /\ results es = [(0, GotReply (y_frame 11 0 []))].
Proof.
  eexists _, _, _. split; [vm_compute; reflexivity|]. split; [|reflexivity].
  repeat (apply Forall_cons; [cbn; auto|]); try apply Forall_nil. exists [117%N]. cbn. auto.
Qed.

(** ** C50 is false in general: the error key is not part of the key computation *)

(** The error key below looks like the response key [xk 11] at one byte, which is the
    length the library computes for these tables. *)
Definition s_std : StdKeys := MkStd (xk 1) (xk 2) (xk 3) (xk 4) (xk 5) (K8 11 1 1 0 0 0 0 0) (xk 7).
Definition s_cfg2 : Config := MkConfig (error_key s_std) 8 false SK4.
Definition s_task0 (n : nat) (sc : N) (h : VarHeader) (v : N) : HProg N unit := HRet tt.
Definition s_history2 : list SysLabel :=
  map SClient ([LRequest (xk 10) (xk 11) [1%N; 2%N]; LRequest (xk 10) (xk 11) [5%N]] ++ y_out 0) ++
  [SServe 0; SRecv 0; SClient (LWake (Some 0)); SClient (LTakeOk 0);
   SClient (LKind 1); SClient (LEnqOk 1); SClient (LEnqErr 1)].

(** A device that the library accepts, with pairwise different keys, on which a
    refused request returns as if it had succeeded, and after which the endpoint can
    no longer be called. *)
Theorem C50_error_taken_for_reply_refuted :
  exists std eps tin tout (ea : list (EpArm N N)) ta d kk cfg ls s cl es task,
    config_ok eps tin tout ea ta /\ define_dispatch N N eps tin tout ea ta = Done d /\ d_kind _ _ d = kk /\
    device_ok std eps tout ea /\ handlers_ok std tout ea ta task [] /\ k8_ok (error_key std) /\
    ~ In (error_key std) (map ep_resp (em_endpoints eps) ++ map snd (tm_topics tout)) /\
    cfg_err_key cfg = error_key std /\
    sys_run N N N std x_net (fun _ _ => true) kk (fun c => (c, c)) d s_enc task cfg ls s_new = Some (s, cl, es) /\
    Forall (label_ok eps tin) cl /\
    (exists e r, y_trace _ _ _ s = [EvSend ByDispatcher (out_header kk (error_key std) (Seq4 0)) (PError e) r]) /\
    In (0, GotReply (MkFrame (out_header kk (error_key std) (Seq4 0)) [255%N])) (results es) /\
    In (1, BadResponse) (results es).
Proof.
  destruct x_config as (C & _ & E). destruct s_device as (D1 & D2).
  destruct (sys_run N N N s_std x_net (fun _ _ => true) KK1 (fun c => (c, c)) x_disp s_enc s_task0 s_cfg2 s_history2 s_new)
    as [[[s cl] es]|] eqn:R; [|vm_compute in R; discriminate].
  exists s_std, x_eps, x_tin, x_tout, x_ea, x_ta, x_disp, KK1, s_cfg2, s_history2, s, cl, es, s_task0.
  split; [exact C|]. split; [exact E|]. split; [reflexivity|]. split; [exact D1|]. split.
  { destruct D2 as (D3 & D4 & _). split; [exact D3|]. split; [exact D4|].
    split; [|split]; [intros a sc h v key seq p Ha Hf Hm; inversion Hm..|intros t key seq p []]. }
  split. { unfold k8_ok. cbn. repeat constructor; vm_compute; reflexivity. }
  split. { vm_compute. intuition discriminate. }
  split; [reflexivity|]. split; [exact R|].
  vm_compute in R. injection R as <- <- <-. split.
  { repeat (apply Forall_cons; [cbn; auto|]); try apply Forall_nil; exists [117%N]; cbn; auto. }
  split; [eexists _, _; reflexivity|]. split; cbn; auto.
Qed.
Print Assumptions C50_error_taken_for_reply_refuted.

(** ** C51 is false in general: a publication can fail somebody's request *)

(** The device of DispatchThm.v with one more incoming topic, [xk 21], for which there
    is no handler. *)
Definition s_tin : TopicMap := MkTpMap ToServer [] [([116], xk 20); ([122], xk 21)]%N.
Definition s_disp : Dispatcher N N :=
  Eval vm_compute in
  match define_dispatch N N x_eps s_tin x_tout x_ea x_ta with Done d => d | Panicked => MkDispatcher N N KK8 [] [] (MkMap [] [] [] [] KK8) end.
Definition s_history3 : list SysLabel :=
  map SClient ([LRequest (xk 10) (xk 11) [5%N]; LPublish (MkFrame (MkHeader (VKey8 (xk 21)) (Seq4 0)) [9%N])] ++
               y_out 0 ++ [LPubSend 0; LOutPop; LOutSent]) ++
  [SServe 1; SRecv 0; SClient (LWake (Some 1)); SClient (LTakeErr 0)].

(** The request returns an error although the server has not even received it: the
    only frame the server received is the publication. *)
Theorem C51_error_of_a_publication_refuted :
  exists std eps tin tout (ea : list (EpArm N N)) ta d kk cfg ls s cl es f g req resp body,
    config_ok eps tin tout ea ta /\ define_dispatch N N eps tin tout ea ta = Done d /\ d_kind _ _ d = kk /\
    device_ok std eps tout ea /\ handlers_ok std tout ea ta s_task [] /\
    cfg_err_key cfg = error_key std /\
    ~ In (compact (klen kk) (k8_bytes (error_key std)))
         (map (fun k => compact (klen kk) (k8_bytes k)) (map ep_resp (em_endpoints eps) ++ map snd (tm_topics tout))) /\
    sys_run N N N std x_net (fun _ _ => true) kk (fun c => (c, c)) d s_enc s_task cfg ls s_new = Some (s, cl, es) /\
    Forall (label_ok eps tin) cl /\
    issued 0 cl = [(MkFrame (MkHeader (VKey8 req) (Seq4 0)) body, resp)] /\ published cl = [g] /\
    wire es = [rpc_to_bytes (MkFrame (MkHeader (VKey8 req) (Seq4 0)) body); rpc_to_bytes g] /\
    In (0, GotError f) (results es) /\
    y_up _ _ _ s = [rpc_to_bytes (MkFrame (MkHeader (VKey8 req) (Seq4 0)) body)].
Proof.
  destruct x_config as (C & _ & E). destruct s_device as (D1 & D2).
  destruct (sys_run N N N x_std x_net (fun _ _ => true) KK1 (fun c => (c, c)) s_disp s_enc s_task s_cfg s_history3 s_new)
    as [[[s cl] es]|] eqn:R; [|vm_compute in R; discriminate].
  exists x_std, x_eps, s_tin, x_tout, x_ea, x_ta, s_disp, KK1, s_cfg, s_history3, s, cl, es,
    (y_frame 6 0 [255%N]), (MkFrame (MkHeader (VKey8 (xk 21)) (Seq4 0)) [9%N]), (xk 10), (xk 11), [5%N].
  split. { unfold config_ok, keys_ok. repeat split; repeat constructor; cbn; repeat constructor. }
  split; [vm_compute; reflexivity|]. split; [reflexivity|]. split; [exact D1|]. split; [exact D2|]. split; [reflexivity|].
  split; [vm_compute; intuition discriminate|]. split; [exact R|].
  vm_compute in R. injection R as <- <- <-. split.
  { repeat (apply Forall_cons; [cbn; auto|]); try apply Forall_nil.
    - exists [117%N]. cbn. auto.
    - exists (xk 21). split; [cbn; auto|]. split; [reflexivity|]. lia. }
  repeat split; cbn; auto.
Qed.
Print Assumptions C51_error_of_a_publication_refuted.
