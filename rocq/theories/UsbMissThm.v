(** Theorems about subscribers and discovery over USB: C87. *)
From Coq Require Import NArith List Bool Arith Lia Permutation.
From Verif Require Import KeyModel HeaderModel KeySpec HeaderSpec MinKeyModel MinKeySpec
  SchemaModel MacroModel PostcardModel DispatchModel DispatchSpec SubModel SubSpec ClientModel ClientSpec
  UsbModel UsbSpec NusbRxModel LogModel.
From Verif Require Import DispatchModel DispatchSpec SystemModel SystemSpec SystemProof SystemThm FlowSpec FlowThm LiveSpec LiveProof LiveThm AsyncModel AsyncSpec AsyncProof AsyncThm
  UsbSysModel UsbSysSpec UsbSysProof UsbSysLive UsbSysThm MissSpec MissThm.
From Verif Require ClientMore ThreadsSpec ThreadsThm ReportModel ReportSpec ReportThm DiscoverSpec DiscoverThm CodecModel CodecSpec CodecStdModel.
Import ListNotations.

Section T.
  Context {Val Ctx SCtx : Type}.
  Variable std : StdKeys.
  Variable can_spawn : Trace Val SCtx -> nat -> bool.
  Variable kkind : VarKeyKind.
  Variable spawn_ctxt : Ctx -> Ctx * SCtx.
  Variable d : Dispatcher Val Ctx.
  Variable enc : Payload Val -> list N.
  Variable task : nat -> SCtx -> VarHeader -> Val -> HProg Val unit.
  Variable bg : list (HProg Val unit).
  Variable cfg : Config.
  Variable txlen rxlen : nat.
  Variable consumes : bool.
  Variable mps : option nat.
  Variable outcome : nat -> list WRes.
  Hypothesis Hsizes : usb_sizes mps txlen rxlen.

  Notation net := (usb_net Val SCtx enc txlen outcome).
  Notation a_step := (a_step Val Ctx SCtx std net can_spawn kkind spawn_ctxt d enc task cfg).
  Notation a_run := (a_run Val Ctx SCtx std net can_spawn kkind spawn_ctxt d enc task cfg).
  Notation a_sys := (a_sys Val Ctx SCtx).
  Notation y_trace := (y_trace Val Ctx SCtx).
  Notation y_down := (y_down Val Ctx SCtx).
  Notation u_step := (u_step Val Ctx SCtx std can_spawn kkind spawn_ctxt d enc task cfg txlen rxlen consumes mps outcome).
  Notation u_run := (u_run Val Ctx SCtx std can_spawn kkind spawn_ctxt d enc task cfg txlen rxlen consumes mps outcome).
  Notation u_trace := (u_trace Val Ctx SCtx).
  Notation Rel := (Rel enc txlen outcome).

  (** Before the subscription [o], the subscription, after it. *)
  Variable ctx0 : Ctx.
  Variable ls1 ls2 : list ULabel.
  Variable u1 u2 u : USys Val Ctx SCtx.
  Variable cl1 cl2 : list Label.
  Variable es1 es2 : list (list Ev).
  Variable o : SubOp.
  Variable id : nat.
  Hypothesis Hrun1 : u_run ls1 (usys_new Val Ctx SCtx bg ctx0) = Some (u1, cl1, es1).
  Hypothesis Hsub : u_step (UClient (LSub o)) u1 = Some (u2, Some (LSub o, [EvSub (ORes (Subscribed id))])).
  Hypothesis Hrun2 : u_run ls2 u2 = Some (u, cl2, es2).
  (** No transfer to the host failed, and the device sent its messages completely. *)
  Hypothesis Herr1 : no_transfer_errors ls1.
  Hypothesis Herr2 : no_transfer_errors ls2.
  Hypothesis Hall : all_sent (u_trace u).

  Lemma lost_none ls : forall a a' cl es, a_run ls a = Some (a', cl, es) -> a_lost a_step loses_down ls a = [] -> keeps_down (system_labels ls).
  Proof.
    induction ls as [|l ls IH]; intros a a' cl es R L; [intros x []|]. cbn [AsyncModel.a_run a_lost] in R, L.
    destruct (a_step l a) as [a0|] eqn:St; [|discriminate]. apply app_eq_nil in L as [L1 L2].
    destruct (a_run ls a0) as [[[a3 cl3] es3]|] eqn:R2; [|discriminate].
    destruct l as [l|]; [|exact (IH _ _ _ _ R2 L2)]. change (system_labels (ASystem l :: ls)) with (l :: system_labels ls).
    intros x [<-|Hx]; [|exact (IH _ _ _ _ R2 L2 x Hx)].
    destruct l; try exact Logic.I; cbn [loses_down] in L1; cbn [AsyncModel.a_step SystemModel.sys_step] in St; destruct (nth_error _ _); discriminate.
  Qed.

  Lemma all_sent_lost (tr : Trace Val SCtx) l : all_sent tr -> Forall (not_sent enc tr) l -> l = [].
  Proof.
    intros H F. destruct l as [|b l]; auto. apply Forall_inv in F as (w & h & p & r & Hi & Hr & _). destruct Hr. eapply H; eauto.
  Qed.

  Lemma tidy_order ls : Forall tidy (system_labels ls) -> down_in_order (system_labels ls).
  Proof. rewrite Forall_forall. intros H i Hi. exact (H _ Hi). Qed.

  (** What happened over USB, as it could have happened over a link. *)
  Record AsLink (l1 l2 : list ALabel) (a1 a2 a : ASys Val Ctx SCtx) : Prop := {
    al_run1 : a_run l1 (asys_new Val Ctx SCtx bg ctx0) = Some (a1, cl1, es1);
    al_sub : a_run [ASystem (SClient (LSub o))] a1 = Some (a2, [LSub o], [[EvSub (ORes (Subscribed id))]]);
    al_run2 : a_run l2 a2 = Some (a, cl2, es2);
    al_keeps1 : keeps_down (system_labels l1);
    al_keeps2 : keeps_down (system_labels l2);
    al_order1 : down_in_order (system_labels l1);
    al_order2 : down_in_order (system_labels l2);
    al_trace1 : y_trace (a_sys a1) = u_trace u1;
    al_trace : y_trace (a_sys a) = u_trace u
  }.

  Lemma usb_link : exists l1 l2 a1 a2 a W, AsLink l1 l2 a1 a2 a /\ Rel true W u a.
  Proof.
    assert (Eb : forall ls, no_transfer_errors ls -> errors_between_messages ls) by (intros ls H e; apply H).
    pose (W := fun b => In b (wire es1) \/ In b (wire es2)).
    destruct (sim_run std can_spawn kkind spawn_ctxt d enc task cfg txlen rxlen consumes mps outcome Hsizes true W ls1 _ _ _ _ _ (rel_new enc bg cfg txlen outcome true W ctx0) Hrun1 (Eb _ Herr1) (fun _ => Herr1))
      as (l1 & a1 & R1 & Rl1 & T1 & _ & _ & D1 & new1 & N1).
    { apply Forall_forall. unfold W. auto. }
    assert (C1 : y_client _ _ _ (a_sys a1) = u_client _ _ _ u1) by apply Rl1.
    cbn [UsbSysModel.u_step] in Hsub. destruct (step cfg (LSub o) (u_client _ _ _ u1)) as [[c e]|] eqn:St; [|discriminate]. injection Hsub as E2 Ee.
    assert (Sm := alive_same _ _ _ _ _ St ltac:(discriminate) ltac:(discriminate)).
    destruct a1 as [s1 cur1]. cbn [AsyncModel.a_sys] in C1. assert (St' := St). rewrite <- C1 in St'.
    pose proof (one_client std can_spawn kkind spawn_ctxt d enc task cfg txlen outcome (LSub o) s1 cur1 c e ltac:(discriminate) St') as Rs.
    rewrite Ee in Rs, E2. cbn [wire_of flat_map] in Rs, E2. rewrite app_nil_r in Rs, E2.
    match type of Rs with _ = Some (?x, _, _) => set (a2 := x) in Rs end.
    assert (Rl2 : Rel true W u2 a2).
    { rewrite <- E2. destruct Rl1. cbn [AsyncModel.a_sys AsyncModel.a_cur] in *. split; cbn; auto; [exact (ClientMore.finv_step _ _ _ _ _ St rl_finv)|rewrite Sm; exact rl_up]. }
    assert (T2 : u_trace u2 = u_trace u1) by (rewrite <- E2; reflexivity).
    destruct (sim_run std can_spawn kkind spawn_ctxt d enc task cfg txlen rxlen consumes mps outcome Hsizes true W ls2 _ _ _ _ _ Rl2 Hrun2 (Eb _ Herr2) (fun _ => Herr2))
      as (l2 & a & R2 & Rl & T3 & _ & _ & D2 & new2 & N2).
    { apply Forall_forall. unfold W. auto. }
    exists l1, l2, (MkASys _ _ _ s1 cur1), a2, a, W. split; [|exact Rl]. split; auto.
    - eapply lost_none; eauto. eapply all_sent_lost; [|exact (D1 eq_refl)]. intros w h p r Hi. apply (Hall w h p r). rewrite N2, T2. apply in_app_iff. auto.
    - eapply lost_none; eauto. eapply all_sent_lost; [|exact (D2 eq_refl)]. exact Hall.
    - apply tidy_order. exact T1.
    - apply tidy_order. exact T3.
    - apply Rl1.
    - apply Rl.
  Qed.

  Lemma usb_link_rest : (forall l, u_own_step l = true -> u_step l u = None) ->
    exists l1 l2 a1 a2 a, AsLink l1 l2 a1 a2 a /\ (forall l, a_own_step l = true -> a_step l a = None).
  Proof.
    intros Hrest. destruct usb_link as (l1 & l2 & a1 & a2 & a & W & [R1 Rs R2 K1 K2 O1 O2 E1 E2] & Rl).
    destruct (reach_sim std net can_spawn kkind spawn_ctxt d enc task bg cfg _ _ _ _ _
      (run_then std net can_spawn kkind spawn_ctxt d enc task cfg _ _ _ _ _ _ _ _ _ R1 (run_then std net can_spawn kkind spawn_ctxt d enc task cfg _ _ _ _ _ _ _ _ _ Rs R2))) as (_ & _ & _ & _ & Ok & _).
    destruct Hsizes as (_ & HB & MB & _).
    destruct (u_rest_rest std can_spawn kkind spawn_ctxt d enc task cfg txlen rxlen consumes mps outcome HB MB _ _ _ Rl Ok Hrest)
      as (l3 & a3 & R3 & Rest & _ & L3 & Et & _ & T3).
    pose proof (run_then std net can_spawn kkind spawn_ctxt d enc task cfg _ _ _ _ _ _ _ _ _ R2 R3) as R23. rewrite !app_nil_r in R23.
    exists l1, (l2 ++ l3), a1, a2, a3. split; [|exact Rest]. 
    assert (Sl : system_labels (l2 ++ l3) = system_labels l2 ++ system_labels l3) by (unfold system_labels; apply flat_map_app).
    split; auto.
    - rewrite Sl. intros l Hl. apply in_app_iff in Hl as [Hl|Hl]; [exact (K2 l Hl)|]. exact (lost_none _ _ _ _ _ R3 (all_sent_lost _ _ Hall L3) l Hl).
    - rewrite Sl. intros i Hi. apply in_app_iff in Hi as [Hi|Hi]; [exact (O2 _ Hi)|]. exact (tidy_order _ T3 _ Hi).
  Qed.

  Variable eps : EndpointMap.
  Variable tin tout : TopicMap.
  Variable ea : list (EpArm Val Ctx).
  Variable ta : list (TpArm Val Ctx).
  Hypothesis Hdisp : dispatcher_for eps tin tout ea ta d.
  Hypothesis Hdev : device_ok std eps tout ea.
  Hypothesis Hkk : klen (d_kind _ _ d) <= klen kkind.
  Hypothesis Hhand : handlers_ok std tout ea ta task bg.
  Hypothesis Hlab1 : Forall (label_ok eps tin) cl1.
  Hypothesis Hlab2 : Forall (label_ok eps tin) cl2.
  Hypothesis Hrecv : still_receiving (cl1 ++ cl2).
  Variable k : Key8.
  Variable depth : nat.

  Lemma messages_app (t1 t2 : Trace Val SCtx) : messages enc (t1 ++ t2) k = messages enc t1 k ++ messages enc t2 k.
  Proof. apply flat_map_app. Qed.

  (** What was transmitted before the subscription has arrived or is on the way. *)
  Lemma sent_before l1 l2 a1 a2 a : AsLink l1 l2 a1 a2 a ->
    messages enc (u_trace u1) k = filter (of_topic k) (arrived cl1) ++ on_the_way k (y_down (a_sys a1)).
  Proof.
    intros [R1 _ _ K1 _ O1 _ E1 _].
    destruct (link std net can_spawn kkind spawn_ctxt d enc task cfg _ _ _ _ _ R1 K1) as (new & T & _ & Q). cbn in T. rewrite T in E1.
    specialize (Q O1). cbn [asys_new AsyncModel.a_sys sys_new SystemModel.y_down flat_map app] in Q. unfold on_the_way. rewrite <- filter_app, Q, <- E1. cbn [AsyncModel.asys_new AsyncModel.a_sys SystemModel.sys_new SystemModel.y_down flat_map app].
    symmetry. apply (messages_sent enc). intros w h p r Hi.
    eapply (sent_seq std net can_spawn kkind spawn_ctxt d enc task bg cfg eps tin tout ea ta Hdisp Hdev Hkk Hhand ctx0 _ _ _ _ R1 Hlab1). rewrite T. exact Hi.
  Qed.

  (** ** C87 Subscribers over USB miss nothing *)

  (** A subscriber that keeps its subscription and is either patient or quick enough (C75)
      is given the messages of its topic that reached the host since it subscribed, in the
      order in which the device and its tasks transmitted them, and, once the system is at
      rest, all of them: together with those that reached the host before, they are what
      was transmitted. *)
  Theorem C87_nothing_missed :
    o = SubscribeExclusive k depth ->
    kept cl2 k id -> only_topic kkind k (cl1 ++ LSub o :: cl2) ->
    patient cl2 cfg \/ keeps_up cl2 es2 k id depth ->
    (exists rest, messages enc (u_trace u) k = filter (of_topic k) (arrived cl1) ++ given cl2 es2 id ++ rest) /\
    (found_empty cl2 es2 id -> (forall l, u_own_step l = true -> u_step l u = None) ->
       messages enc (u_trace u) k = filter (of_topic k) (arrived cl1) ++ given cl2 es2 id).
  Proof.
    intros Eo Hk Ho Hp. split.
    - destruct usb_link as (l1 & l2 & a1 & a2 & a & W & L & _). pose proof (sent_before _ _ _ _ _ L) as B. destruct L as [R1 Rs R2 K1 K2 O1 O2 E1 E2].
      rewrite Eo in Rs, Ho.
      destruct (C75_nothing_missed std net can_spawn kkind spawn_ctxt d enc task bg cfg eps tin tout ea ta Hdisp Hdev Hkk Hhand ctx0 k depth id l1 l2 _ _ _ _ _ _ _ R1 R2 Hlab1 Hlab2 Hrecv K2 Rs Hk Ho Hp)
        as (new & waiting & T & _ & Q & _). specialize (Q O2). rewrite E1, E2 in T. rewrite T, messages_app, B, <- app_assoc, <- Q. eauto.
    - intros Fe Hrest. destruct (usb_link_rest Hrest) as (l1 & l2 & a1 & a2 & a & L & Rst). pose proof (sent_before _ _ _ _ _ L) as B. destruct L as [R1 Rs R2 K1 K2 O1 O2 E1 E2].
      rewrite Eo in Rs, Ho.
      destruct (C75_all_received std net can_spawn kkind spawn_ctxt d enc task bg cfg eps tin tout ea ta Hdisp Hdev Hkk Hhand ctx0 k depth id l1 l2 _ _ _ _ _ _ _ R1 R2 Hlab1 Hlab2 Hrecv K2 Rst Rs Hk Ho Hp Fe)
        as (new & T & _ & Q). specialize (Q O2). rewrite E1, E2 in T. rewrite T, messages_app, B, <- app_assoc, <- Q. reflexivity.
  Qed.

  Theorem C87_multi_nothing_missed :
    o = SubscribeMulti k depth ->
    kept_multi cl2 id -> only_topic kkind k (cl1 ++ LSub o :: cl2) ->
    never_lagged cl2 es2 id \/ ((forall d', ~ In (LSub (SubscribeMulti k d')) cl1) /\ keeps_up_multi cl2 es2 k id depth) ->
    (exists rest, messages enc (u_trace u) k = filter (of_topic k) (arrived cl1) ++ given_multi cl2 es2 id ++ rest) /\
    (found_empty_multi cl2 es2 id -> (forall l, u_own_step l = true -> u_step l u = None) ->
       messages enc (u_trace u) k = filter (of_topic k) (arrived cl1) ++ given_multi cl2 es2 id).
  Proof.
    intros Eo Hk Ho Hp. split.
    - destruct usb_link as (l1 & l2 & a1 & a2 & a & W & L & _). pose proof (sent_before _ _ _ _ _ L) as B. destruct L as [R1 Rs R2 K1 K2 O1 O2 E1 E2].
      rewrite Eo in Rs, Ho.
      destruct (C75_multi_nothing_missed std net can_spawn kkind spawn_ctxt d enc task bg cfg eps tin tout ea ta Hdisp Hdev Hkk Hhand ctx0 k depth id l1 l2 _ _ _ _ _ _ _ R1 R2 Hlab1 Hlab2 Hrecv K2 Rs Hk Ho Hp)
        as (_ & _ & new & waiting & T & _ & Q & _). specialize (Q O2). rewrite E1, E2 in T. rewrite T, messages_app, B, <- app_assoc, <- Q. eauto.
    - intros Fe Hrest. destruct (usb_link_rest Hrest) as (l1 & l2 & a1 & a2 & a & L & Rst). pose proof (sent_before _ _ _ _ _ L) as B. destruct L as [R1 Rs R2 K1 K2 O1 O2 E1 E2].
      rewrite Eo in Rs, Ho.
      destruct (C75_multi_all_received std net can_spawn kkind spawn_ctxt d enc task bg cfg eps tin tout ea ta Hdisp Hdev Hkk Hhand ctx0 k depth id l1 l2 _ _ _ _ _ _ _ R1 R2 Hlab1 Hlab2 Hrecv K2 Rst Rs Hk Ho Hp Fe)
        as (new & T & _ & Q). specialize (Q O2). rewrite E1, E2 in T. rewrite T, messages_app, B, <- app_assoc, <- Q. reflexivity.
  Qed.
End T.
Print Assumptions C87_nothing_missed.
Print Assumptions C87_multi_nothing_missed.

(** *** What a subscriber hears of a task *)
Section Tasks.
  Import ThreadsSpec ThreadsThm.
  Context {Val Ctx SCtx : Type}.
  Variable std : StdKeys.
  Variable can_spawn : Trace Val SCtx -> nat -> bool.
  Variable kkind : VarKeyKind.
  Variable spawn_ctxt : Ctx -> Ctx * SCtx.
  Variable d : Dispatcher Val Ctx.
  Variable enc : Payload Val -> list N.
  Variable task : nat -> SCtx -> VarHeader -> Val -> HProg Val unit.
  Variable bg : list (HProg Val unit).
  Variable cfg : Config.
  Variable txlen rxlen : nat.
  Variable consumes : bool.
  Variable mps : option nat.
  Variable outcome : nat -> list WRes.
  Variable eps : EndpointMap.
  Variable tin tout : TopicMap.
  Variable ea : list (EpArm Val Ctx).
  Variable ta : list (TpArm Val Ctx).
  Notation u_step := (u_step Val Ctx SCtx std can_spawn kkind spawn_ctxt d enc task cfg txlen rxlen consumes mps outcome).
  Notation u_run := (u_run Val Ctx SCtx std can_spawn kkind spawn_ctxt d enc task cfg txlen rxlen consumes mps outcome).
  Notation u_trace := (u_trace Val Ctx SCtx).

  (** Once the system is at rest, every task has done all of its program, and the
      subscriber was given all messages that the task published on the topic since the
      subscription, in the order of the program. *)
  Theorem C87_tasks_are_heard :
    usb_sizes mps txlen rxlen ->
    dispatcher_for eps tin tout ea ta d -> device_ok std eps tout ea -> klen (d_kind _ _ d) <= klen kkind -> handlers_ok std tout ea ta task bg ->
    forall ctx0 ls1 ls2 u1 u2 u cl1 cl2 es1 es2 id k depth,
      u_run ls1 (usys_new Val Ctx SCtx bg ctx0) = Some (u1, cl1, es1) ->
      u_step (UClient (LSub (SubscribeExclusive k depth))) u1 = Some (u2, Some (LSub (SubscribeExclusive k depth), [EvSub (ORes (Subscribed id))])) ->
      u_run ls2 u2 = Some (u, cl2, es2) ->
      no_transfer_errors ls1 -> no_transfer_errors ls2 -> all_sent (u_trace u) ->
      Forall (label_ok eps tin) cl1 -> Forall (label_ok eps tin) cl2 -> still_receiving (cl1 ++ cl2) ->
      (forall l, u_own_step l = true -> u_step l u = None) ->
      kept cl2 k id -> only_topic kkind k (cl1 ++ LSub (SubscribeExclusive k depth) :: cl2) ->
      patient cl2 cfg \/ keeps_up cl2 es2 k id depth ->
      found_empty cl2 es2 id ->
      forall i p, nth_error (programs task bg (u_trace u)) i = Some p ->
      exists before after, says kkind p (before ++ after) (HRet tt) /\
        subsequence before (u_trace u1) /\ subsequence (messages enc after k) (given cl2 es2 id).
  Proof.
    intros Hs Hdisp Hdev Hkk Hhand ctx0 ls1 ls2 u1 u2 u cl1 cl2 es1 es2 id k depth R1 St R2 E1 E2 Al L1 L2 Sr Rest K O G Fe i p Hp.
    destruct (usb_link_rest std can_spawn kkind spawn_ctxt d enc task bg cfg txlen rxlen consumes mps outcome Hs ctx0 ls1 ls2 u1 u2 u cl1 cl2 es1 es2 _ id R1 St R2 E1 E2 Al Rest)
      as (l1 & l2 & a1 & a2 & a & [A1 As A2 K1 K2 O1 O2 T1 T2] & Rst).
    rewrite <- T2 in Hp. rewrite <- T1.
    exact (C77_tasks_are_heard std _ can_spawn kkind spawn_ctxt d enc task bg cfg eps tin tout ea ta Hdisp Hdev Hkk Hhand ctx0 k depth id l1 l2 a1 a2 a cl1 cl2 es1 es2 A1 A2 L1 L2 Sr K2 O2 Rst As K O G Fe i p Hp).
  Qed.
End Tasks.
Print Assumptions C87_tasks_are_heard.

(** *** Discovery over USB *)
Section Discover.
  Import CodecModel CodecSpec CodecStdModel ReportModel ReportSpec ReportThm DiscoverSpec DiscoverThm.
  Context {Ctx SCtx : Type}.
  Notation Val := value.
  Notation enc := payload_bytes.
  Variable std : StdKeys.
  Variable can_spawn : Trace Val SCtx -> nat -> bool.
  Variable kkind : VarKeyKind.
  Variable spawn_ctxt : Ctx -> Ctx * SCtx.
  Variable d : Dispatcher Val Ctx.
  Variable task : nat -> SCtx -> VarHeader -> Val -> HProg Val unit.
  Variable bg : list (HProg Val unit).
  Variable cfg : Config.
  Variable txlen rxlen : nat.
  Variable consumes : bool.
  Variable mps : option nat.
  Variable outcome : nat -> list WRes.
  Variable eps : EndpointMap.
  Variable tin tout : TopicMap.
  Variable ea : list (EpArm Val Ctx).
  Variable ta : list (TpArm Val Ctx).
  Notation u_step := (u_step Val Ctx SCtx std can_spawn kkind spawn_ctxt d enc task cfg txlen rxlen consumes mps outcome).
  Notation u_run := (u_run Val Ctx SCtx std can_spawn kkind spawn_ctxt d enc task cfg txlen rxlen consumes mps outcome).
  Notation u_trace := (u_trace Val Ctx SCtx).
  Notation m := (d_map _ _ d).
  Hypothesis Hsizes : usb_sizes mps txlen rxlen.
  Hypothesis Hdisp : dispatcher_for eps tin tout ea ta d.
  Hypothesis Hdev : device_ok std eps tout ea.
  Hypothesis Hhand : handlers_ok std tout ea ta task bg.
  Hypothesis Hkk : klen (d_kind _ _ d) <= klen kkind.
  Hypothesis Hps : ping_req std <> schemas_req std.
  Hypothesis Hleave : leaves_schemas std ea ta task bg.
  Hypothesis Hlen : (N.of_nat (length (advertised m)) < 65536)%N.
  Hypothesis Hnames : Forall sd_ok (advertised m).
  Hypothesis Happart : error_apart kkind std eps tout.

  (** Over USB, whatever the device does not send completely and whichever transfers fail
      between messages, a report that the client is given is that of the device (cf.
      C76). *)
  Theorem C87_report_is_of_the_device :
    forall ctx0 ls u cl es r hash builtin order id f tot outs rpt,
      u_run ls (usys_new Val Ctx SCtx bg ctx0) = Some (u, cl, es) -> Forall (label_ok eps tin) cl ->
      set_order order ->
      errors_between_messages ls ->
      only_discovery std cl r ->
      subscribed_multi cl es (schema_topic std) id ->
      In (r, GotReply f) (results es) -> from_bytes_totals (f_body f) = Some tot ->
      listened cl es id outs ->
      @get_schema_report hash builtin order unit true (Some outs) (inl tot) = Done (inl rpt) ->
      same_rows rpt m /\ report_sound hash rpt /\
      (forall t, In t (rp_types rpt) -> In t builtin \/ In t (dm_types m)).
  Proof.
    intros ctx0 ls u cl es r hash builtin order id f tot outs rpt R L So He Od Sb Hr Ht Hl Hg.
    destruct (C71_usb_is_a_link std can_spawn kkind spawn_ctxt d enc task bg cfg txlen rxlen consumes mps outcome Hsizes ctx0 ls u cl es R He) as (ls' & a & Ra & _ & _ & _ & _ & _ & _ & _ & O & _).
    exact (C76_report_is_of_the_device std _ can_spawn kkind spawn_ctxt d task bg cfg eps tin tout ea ta Hdisp Hdev Hhand Hkk Hps Hleave Hlen Hnames Happart ctx0 ls' a cl es r hash builtin order id f tot outs rpt Ra L So O Od Sb Hr Ht Hl Hg).
  Qed.

  (** And if no transfer fails and the device sends its messages completely, then the
      reply to a client that subscribed before asking, and did not lag, is complete, and so
      is the report. *)
  Theorem C87_discovery_succeeds :
    forall ctx0 depth id ls1 ls2 u1 u2 u cl1 cl2 es1 es2 r,
      let subscribe := LSub (SubscribeMulti (schema_topic std) depth) in
      let cl := cl1 ++ subscribe :: cl2 in
      let es := es1 ++ [EvSub (ORes (Subscribed id))] :: es2 in
      u_run ls1 (usys_new Val Ctx SCtx bg ctx0) = Some (u1, cl1, es1) ->
      u_step (UClient subscribe) u1 = Some (u2, Some (subscribe, [EvSub (ORes (Subscribed id))])) ->
      u_run ls2 u2 = Some (u, cl2, es2) ->
      no_transfer_errors ls1 -> no_transfer_errors ls2 -> all_sent (u_trace u) ->
      Forall (label_ok eps tin) cl1 -> Forall (label_ok eps tin) cl2 -> still_receiving (cl1 ++ cl2) ->
      only_discovery std cl r -> length (issued 0 cl1) <= r ->
    forall hash builtin order f, set_order order ->
      kept_multi cl2 id -> only_topic kkind (schema_topic std) cl ->
      never_lagged cl2 es2 id \/ ((forall d', ~ In (LSub (SubscribeMulti (schema_topic std) d')) cl1) /\ keeps_up_multi cl2 es2 (schema_topic std) id depth) ->
      found_empty_multi cl2 es2 id ->
      In (r, GotReply f) (results es) ->
      Forall (ep_resolvable hash (builtin ++ dm_types m)) (dm_endpoints m) ->
      Forall (tp_resolvable hash (builtin ++ dm_types m)) (dm_topics_in m) ->
      Forall (tp_resolvable hash (builtin ++ dm_types m)) (dm_topics_out m) ->
      exists tot rpt, from_bytes_totals (f_body f) = Some tot /\
        @get_schema_report hash builtin order unit true (Some (heard cl2 es2 id ++ [Elapsed])) (inl tot) = Done (inl rpt) /\
        same_rows rpt m /\ same_types builtin rpt m /\ report_sound hash rpt.
  Proof.
    intros ctx0 depth id ls1 ls2 u1 u2 u cl1 cl2 es1 es2 r subscribe cl es R1 St R2 E1 E2 Al L1 L2 Sr Od Af hash builtin order f So K O G Fe Hr Re Ri Ro.
    destruct (usb_link std can_spawn kkind spawn_ctxt d enc task bg cfg txlen rxlen consumes mps outcome Hsizes ctx0 ls1 ls2 u1 u2 u cl1 cl2 es1 es2 _ id R1 St R2 E1 E2 Al)
      as (l1 & l2 & a1 & a2 & a & W & [A1 As A2 K1 K2 O1 O2 T1 T2] & _).
    apply (C76_discovery_succeeds std _ can_spawn kkind spawn_ctxt d task bg cfg eps tin tout ea ta Hdisp Hdev Hhand Hkk Hps Hleave Hlen Hnames Happart ctx0 depth id l1 l2 a1 a2 a cl1 cl2 es1 es2 A1 As A2 L1 L2 Sr K2 O2 r Od Af hash builtin order f So K O G Fe Hr); auto.
    intros w h x r0 Hi. rewrite T2 in Hi. exact (Al _ _ _ _ Hi).
  Qed.
End Discover.
Print Assumptions C87_report_is_of_the_device.
Print Assumptions C87_discovery_succeeds.
