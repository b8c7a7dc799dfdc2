(** C69 for typed subscriptions. *)
From Coq Require Import NArith ZArith List Bool Arith Lia Permutation.
From Verif Require Import KeyModel HeaderModel KeySpec HeaderSpec MinKeyModel MinKeySpec SchemaModel MacroModel PostcardModel
  DispatchModel DispatchSpec DispatchThm SubModel ClientModel ClientSpec ClientThm4 SystemModel SystemSpec SystemProof SystemThm SystemThm2
  CodecModel CodecSpec CodecProof CodecStdModel CodecStdProof CodecThm TypedSpec TypedThm TypedThm2 UsbSpec FlowBase FlowSpec FlowThm FlowThm2 FlowPub.
Import ListNotations.

Section T.
  Context {Ctx SCtx : Type}.
  Variable std : StdKeys.
  Variable net : Trace value SCtx -> VarHeader -> Payload value -> TxRes.
  Variable can_spawn : Trace value SCtx -> nat -> bool.
  Variable kkind : VarKeyKind.
  Variable spawn_ctxt : Ctx -> Ctx * SCtx.
  Variable task : nat -> SCtx -> VarHeader -> value -> HProg value unit.
  Variable bg : list (HProg value unit).
  Variable cfg : Config.
  Variable eps : EndpointMap.
  Variable tin tout : TopicMap.
  Variable ea : list (EpArm value Ctx).
  Variable ta : list (TpArm value Ctx).
  Variable d : Dispatcher value Ctx.
  Variable rqty inty : Key8 -> NamedType.

  Hypothesis Hdisp : dispatcher_for eps tin tout ea ta d.
  Hypothesis Hdev : device_ok std eps tout ea.
  Hypothesis Hhand : handlers_ok std tout ea ta task bg.
  Hypothesis Hkk : klen (d_kind _ _ d) <= klen kkind.

  Variable ctx0 : Ctx.
  Variable ls : list SysLabel.
  Variable s : Sys value Ctx SCtx.
  Variable cl : list Label.
  Variable es : list (list Ev).
  Hypothesis Hrun : sys_run value Ctx SCtx std net can_spawn kkind spawn_ctxt d payload_bytes task cfg ls (sys_new value Ctx SCtx bg ctx0) = Some (s, cl, es).
  Hypothesis Hlab : Forall (label_ok eps tin) cl.
  (** Bodies consist of bytes. *)
  Hypothesis Hbytes : Forall (Forall byte_ok) (bodies_of cl).
  Notation tr := (y_trace _ _ _ s).

  Lemma published_typed k ty p : typed_topic std ea task rqty ta bg inty k ty -> publishes std ea ta task bg d (bodies_of cl) tr k p -> exists w, p = PVal w /\ typed ty w.
  Proof.
    intros (Hk & De & Dt & P1 & P2 & P3 & P4 & P5) H.
    assert (T : forall t body v, In body (bodies_of cl) -> from_bytes t body = Some v -> typed t v).
    { intros t body v Hi D. rewrite Forall_forall in Hbytes. exact (C63_well_formed t body v (Hbytes body Hi) D). }
    inversion H; subst.
    - rewrite De in * by auto. eauto.
    - rewrite Dt in * by auto. eauto.
    - rewrite De in * by auto. eauto.
    - rewrite Dt in * by auto. eauto.
    - eauto.
    - congruence.
  Qed.

  (** Decoding what arrived of published values loses the incomplete ones. *)
  Lemma seen_published ty frames ps : Forall2 (body_of payload_bytes ls) frames ps -> Forall (fun p => exists w, p = PVal w /\ typed ty w) ps ->
    subsequence (seen_as ty frames) (values_in ps) /\ (uncut ls -> seen_as ty frames = values_in ps /\ length (seen_as ty frames) = length frames).
  Proof.
    induction 1 as [|f p frames ps (missing & E & U) F IH]; intros HT. { split; [constructor|auto]. }
    inversion HT as [|? ? (w & -> & Hw) HT']; subst. destruct (IH HT') as [I1 I2]. cbn [seen_as values_in flat_map app].
    destruct (from_bytes ty (f_body f)) as [v|] eqn:D.
    - destruct (de_part _ _ _ _ _ Hw E D) as [-> ->]. split; [constructor; exact I1|]. intros Uc. destruct (I2 Uc) as [Q L].
      cbn [app length]. split; f_equal; [exact Q|exact L].
    - split; [constructor; exact I1|]. intros Uc. rewrite (U Uc), app_nil_r in E. change (ser w = f_body f) in E. rewrite <- E in D.
      rewrite <- (app_nil_r (ser w)), (C63_round_trip ty w [] Hw) in D. discriminate.
  Qed.

  Lemma values_perm (a b : list (Payload value)) : Permutation a b -> Permutation (values_in a) (values_in b).
  Proof. apply Permutation_flat_map. Qed.

  Lemma typed_flow k ty frames :
    is_topic_out tout k -> compact (klen kkind) (k8_bytes k) <> compact (klen kkind) (k8_bytes (error_key std)) ->
    typed_topic std ea task rqty ta bg inty k ty ->
    (exists ps, Forall2 (body_of payload_bytes ls) frames ps /\ (exists rest, Permutation (sent_on tr k) (ps ++ rest)) /\ (down_in_order ls -> subsequence ps (sent_on tr k))) ->
    Forall (fun v => publishes std ea ta task bg d (bodies_of cl) tr k (PVal v)) (seen_as ty frames) /\
    (exists rest, Permutation (values_in (sent_on tr k)) (seen_as ty frames ++ rest)) /\
    (down_in_order ls -> subsequence (seen_as ty frames) (values_in (sent_on tr k))) /\
    (uncut ls -> length (seen_as ty frames) = length frames).
  Proof.
    intros Hk He Ht (ps & F & (rest & P) & O).
    pose proof (sent_published std net can_spawn kkind spawn_ctxt payload_bytes task bg cfg eps tin tout ea ta d Hdisp Hdev Hhand Hkk _ _ _ _ _ Hrun Hlab k Hk He) as Pub.
    assert (Pp : Forall (publishes std ea ta task bg d (bodies_of cl) tr k) ps).
    { rewrite Forall_forall in Pub |- *. intros p Hp. apply Pub. eapply Permutation_in; [apply Permutation_sym, P|]. apply in_app_iff. auto. }
    assert (T : Forall (fun p => exists w, p = PVal w /\ typed ty w) ps).
    { rewrite Forall_forall in Pp |- *. intros p Hp. eapply published_typed; eauto. }
    destruct (seen_published ty _ _ F T) as [S1 S2]. split; [|split; [|split]].
    - apply Forall_forall. intros v Hv. pose proof (subseq_in _ _ _ S1 Hv) as Hi. unfold values_in in Hi. apply in_flat_map in Hi as (p & Hp & Hi).
      rewrite Forall_forall in Pp. specialize (Pp p Hp). destruct p; try destruct Hi; [subst; auto|contradiction].
    - destruct (subseq_perm _ _ S1) as (r1 & P1). exists (r1 ++ values_in rest). rewrite app_assoc.
      eapply perm_trans; [apply values_perm, P|]. unfold values_in. rewrite flat_map_app. apply Permutation_app_tail. exact P1.
    - intros D. eapply subseq_trans; [|exact S1]. apply subseq_flat_map. auto.
    - intros U. apply S2. auto.
  Qed.

  (** The values that a typed subscription yields are values that user code on the device
      published on that topic, each at most as often as it was transmitted; they are in
      the order of transmission if the link keeps the order, and unless the link cuts
      messages short none is skipped as undecodable. *)
  Theorem C69_typed_subscription_partial :
    forall k ty id, is_topic_out tout k -> compact (klen kkind) (k8_bytes k) <> compact (klen kkind) (k8_bytes (error_key std)) ->
      typed_topic std ea task rqty ta bg inty k ty -> subscribed cl es k id ->
      Forall (fun v => publishes std ea ta task bg d (bodies_of cl) tr k (PVal v)) (seen_as ty (given cl es id)) /\
      (exists rest, Permutation (values_in (sent_on tr k)) (seen_as ty (given cl es id) ++ rest)) /\
      (down_in_order ls -> subsequence (seen_as ty (given cl es id)) (values_in (sent_on tr k))) /\
      (uncut ls -> length (seen_as ty (given cl es id)) = length (given cl es id)).
  Proof.
    intros k ty id Hk He Ht Hs. apply typed_flow; auto.
    eapply C68_given_was_sent; eauto.
  Qed.
  Theorem C69_typed_multi_subscription_partial :
    forall k ty id, is_topic_out tout k -> compact (klen kkind) (k8_bytes k) <> compact (klen kkind) (k8_bytes (error_key std)) ->
      typed_topic std ea task rqty ta bg inty k ty -> subscribed_multi cl es k id ->
      Forall (fun v => publishes std ea ta task bg d (bodies_of cl) tr k (PVal v)) (seen_as ty (given_multi cl es id)) /\
      (exists rest, Permutation (values_in (sent_on tr k)) (seen_as ty (given_multi cl es id) ++ rest)) /\
      (down_in_order ls -> subsequence (seen_as ty (given_multi cl es id)) (values_in (sent_on tr k))) /\
      (uncut ls -> length (seen_as ty (given_multi cl es id)) = length (given_multi cl es id)).
  Proof.
    intros k ty id Hk He Ht Hs. apply typed_flow; auto.
    eapply C68_given_multi_was_sent; eauto.
  Qed.
End T.
Print Assumptions C69_typed_subscription_partial.
Print Assumptions C69_typed_multi_subscription_partial.

(** In the history of FlowThm2.v, all hypotheses hold of topic 7, whose messages are
    numbers; the message that was cut short is skipped. *)
Definition z_inty (k : Key8) : NamedType := t_u32.
Lemma z_topic : typed_topic x_std z_ea z_task z_rqty z_ta w_bg z_inty (xk 7) t_u32.
Proof.
  split; [discriminate|]. split; [intros a body [<-|[<-|[]]]; reflexivity|]. split; [intros a body [<-|[]]; reflexivity|].
  split; [|split; [|split; [|split]]].
  - intros a ctx h v seq p [<-|[<-|[]]] F Hv M; cbn in M; [inversion M|].
    repeat match type of M with context [match ?x with _ => _ end] => destruct x end; inversion M.
  - intros a ctx h v seq p [<-|[]] F Hv M. cbn in M. inversion M; subst; [|match goal with H : may_send (HRet _) _ _ _ |- _ => inversion H end].
    exists v. split; auto.
  - intros a sc h v seq p [<-|[<-|[]]] F Hv M; [|discriminate]. unfold z_task in M.
    destruct v; try solve [inversion M]. destruct w; try solve [inversion M].
    destruct (n <=? 100)%N; inversion M; subst; match goal with H : may_send (HRet _) _ _ _ |- _ => inversion H end.
  - intros a sc h v seq p [<-|[]] F. discriminate.
  - intros t seq p [<-|[]] M. inversion M; subst; [|match goal with H : may_send (HRet _) _ _ _ |- _ => inversion H end].
    exists (VUInt W32 55). split; [reflexivity|]. vm_compute. reflexivity.
Qed.
Example C69_ex :
  config_ok x_eps x_tin x_tout z_ea z_ta /\ define_dispatch value N x_eps x_tin x_tout z_ea z_ta = Done z_disp /\
  device_ok x_std x_eps x_tout z_ea /\ handlers_ok x_std x_tout z_ea z_ta z_task w_bg /\
  klen (d_kind _ _ z_disp) <= klen KK1 /\ is_topic_out x_tout (xk 7) /\
  compact (klen KK1) (k8_bytes (xk 7)) <> compact (klen KK1) (k8_bytes (error_key x_std)) /\
  typed_topic x_std z_ea z_task z_rqty z_ta w_bg z_inty (xk 7) t_u32 /\
  exists s cl es, z_run w_history w_new = Some (s, cl, es) /\
    Forall (label_ok x_eps x_tin) cl /\ Forall (Forall byte_ok) (bodies_of cl) /\
    subscribed cl es (xk 7) 0 /\ subscribed_multi cl es (xk 7) 0 /\
    seen_as t_u32 (given cl es 0) = [VUInt W32 100; VUInt W32 55]%N /\ seen_as t_u32 (given_multi cl es 0) = [VUInt W32 100; VUInt W32 55]%N /\
    values_in (sent_on (y_trace _ _ _ s) (xk 7)) = [VUInt W32 100; VUInt W32 300; VUInt W32 400; VUInt W32 55]%N.
Proof.
  destruct C67_C68_ex as (C & E & D1 & D2 & L & _ & _ & s & cl & es & R & HL & _ & _ & S1 & S2 & _).
  split; [exact C|]. split; [exact E|]. split; [exact D1|]. split; [exact D2|]. split; [exact L|]. split; [cbn; auto|].
  split; [vm_compute; discriminate|]. split; [exact z_topic|].
  exists s, cl, es. split; [exact R|]. split; [exact HL|]. vm_compute in R. injection R as <- <- <-.
  split. { repeat (apply Forall_cons || apply Forall_nil); vm_compute; reflexivity. }
  split; [exact S1|]. split; [exact S2|]. repeat split; reflexivity.
Qed.

(** ** C69 is false in general: the error key is not part of the key computation *)

(** The error key below looks like topic 7 at one byte, the length the library computes
    for these tables. *)
Definition f_std : StdKeys := MkStd (xk 1) (xk 2) (xk 3) (xk 4) (xk 5) (K8 7 1 1 0 0 0 0 0) (xk 7).
Definition f_cfg : Config := MkConfig (error_key f_std) 8 false SK4.
Definition f_history : list SysLabel :=
  map SClient ([LSub (SubscribeExclusive (xk 7) 4); LRequest (xk 10) (xk 11) [1%N; 2%N]] ++ y_out 0) ++
  [SServe 0; SRecv 0; SClient (LSub (ReceiveX 0))].

(** A device that the library accepts, with pairwise different keys, on which a
    subscriber is given a message although nobody published anything: it is the error
    with which a request was refused. *)
Theorem C69_error_given_to_subscriber_refuted :
  exists std eps tin tout (ea : list (EpArm N N)) ta d kk cfg ls s cl es task k id f,
    config_ok eps tin tout ea ta /\ define_dispatch N N eps tin tout ea ta = Done d /\ d_kind _ _ d = kk /\
    device_ok std eps tout ea /\ handlers_ok std tout ea ta task [] /\ k8_ok (error_key std) /\
    ~ In (error_key std) (map ep_resp (em_endpoints eps) ++ map snd (tm_topics tout)) /\
    cfg_err_key cfg = error_key std /\
    sys_run N N N std x_net (fun _ _ => true) kk (fun c => (c, c)) d s_enc task cfg ls s_new = Some (s, cl, es) /\
    Forall (label_ok eps tin) cl /\
    is_topic_out tout k /\ subscribed cl es k id /\ given cl es id = [f] /\
    k <> schema_topic std /\ invocations (y_trace _ _ _ s) = [].
Proof.
  destruct x_config as (C & _ & E). destruct s_device as (D1 & D2).
  destruct (sys_run N N N f_std x_net (fun _ _ => true) KK1 (fun c => (c, c)) x_disp s_enc s_task0 f_cfg f_history s_new)
    as [[[s cl] es]|] eqn:R; [|vm_compute in R; discriminate].
  exists f_std, x_eps, x_tin, x_tout, x_ea, x_ta, x_disp, KK1, f_cfg, f_history, s, cl, es, s_task0, (xk 7), 0.
  vm_compute in R. injection R as <- <- <-. eexists.
  split; [exact C|]. split; [exact E|]. split; [reflexivity|]. split; [exact D1|]. split.
  { destruct D2 as (D3 & D4 & _). split; [exact D3|]. split; [exact D4|].
    split; [|split]; [intros a sc h v key seq p Ha Hf Hm; inversion Hm..|intros t key seq p []]. }
  split. { unfold k8_ok. cbn. repeat constructor; vm_compute; reflexivity. }
  split. { vm_compute. intuition discriminate. }
  split; [reflexivity|]. split; [vm_compute; reflexivity|]. split.
  { repeat (apply Forall_cons; [cbn; auto|]); try apply Forall_nil; exists [117%N]; cbn; auto. }
  split; [cbn; auto|]. split; [exists 4; left; cbn; auto|]. split; [reflexivity|]. split; [discriminate|]. reflexivity.
Qed.
Print Assumptions C69_error_given_to_subscriber_refuted.
