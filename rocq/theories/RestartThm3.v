(** C95 in the whole system, where it holds: a host program that is started when nothing of
    the earlier one is under way has a device as good as new. *)
From Coq Require Import NArith List Bool Arith Lia.
From Verif Require Import KeyModel HeaderModel KeySpec HeaderSpec MinKeyModel MinKeySpec
  SchemaModel MacroModel PostcardModel DispatchModel DispatchSpec DispatchThm SubModel SubSpec ClientModel ClientSpec ClientThm4
  UsbModel UsbSpec NusbRxModel LogModel.
From Verif Require Import DispatchModel DispatchSpec SystemModel SystemSpec SystemProof SystemThm SystemThm2 FlowSpec LiveSpec LiveProof LiveThm LiveThm2 AsyncModel AsyncSpec
  UsbSysModel UsbSysSpec UsbSysProof UsbSysLive UsbSysThm UsbSysThm2 RestartThm2 RestartSys.
Import ListNotations.

Section T.
  Context {Val Ctx SCtx : Type}.
  Variable std : StdKeys.
  Variable can_spawn : Trace Val SCtx -> nat -> bool.
  Variable kkind : VarKeyKind.
  Variable spawn_ctxt : Ctx -> Ctx * SCtx.
  Variable d : Dispatcher Val Ctx.
  Variable enc : Payload Val -> list N.
  Variable task : nat -> SCtx -> VarHeader -> Val -> HProg Val unit.
  Variable cfg : Config.
  Variable txlen rxlen : nat.
  Variable consumes : bool.
  Variable mps : option nat.
  Variable outcome : nat -> list WRes.
  Notation u_step := (u_step Val Ctx SCtx std can_spawn kkind spawn_ctxt d enc task cfg txlen rxlen consumes mps outcome).
  Notation u_run := (u_run Val Ctx SCtx std can_spawn kkind spawn_ctxt d enc task cfg txlen rxlen consumes mps outcome).

  (** Nothing is under way: no packet in either direction, the server waits for a frame,
      and the device owes the host no end of an interrupted message. *)
  Definition nothing_under_way (u : USys Val Ctx SCtx) : Prop :=
    u_out _ _ _ u = [] /\ u_in _ _ _ u = [] /\ u_cur _ _ _ u = None /\ u_serving _ _ _ u = true /\
    tx_pending Val SCtx enc txlen outcome (u_trace _ _ _ u) = false.

  (** What the earlier program and the device did, in any way at all, up to the restart. *)
  Variable u1 : USys Val Ctx SCtx.
  Hypothesis Hquiet : nothing_under_way u1.
  Notation old := (u_trace _ _ _ u1).
  Notation u_step' := (UsbSysModel.u_step Val Ctx SCtx std (can_spawn' can_spawn old) kkind spawn_ctxt d enc task cfg txlen rxlen consumes mps (outcome' enc txlen outcome old)).
  Notation u_run' := (UsbSysModel.u_run Val Ctx SCtx std (can_spawn' can_spawn old) kkind spawn_ctxt d enc task cfg txlen rxlen consumes mps (outcome' enc txlen outcome old)).

  Lemma restarted_later : restarted u1 = later old (usys_new Val Ctx SCtx (u_tasks _ _ _ u1) (u_ctx _ _ _ u1)).
  Proof.
    destruct Hquiet as (E1 & E2 & E3 & E4 & _). unfold restarted, later, usys_new. cbn [u_client u_out u_in u_acc u_comps u_reqs u_errs u_ctx u_tasks u_serving u_cur u_trace].
    rewrite E1, E2, E3, E4, app_nil_r. reflexivity.
  Qed.

  Lemma later_eq (a b : USys Val Ctx SCtx) :
    u_client _ _ _ a = u_client _ _ _ b /\ u_out _ _ _ a = u_out _ _ _ b /\ u_in _ _ _ a = u_in _ _ _ b /\
    u_acc _ _ _ a = u_acc _ _ _ b /\ u_comps _ _ _ a = u_comps _ _ _ b /\ u_reqs _ _ _ a = u_reqs _ _ _ b /\ u_errs _ _ _ a = u_errs _ _ _ b /\
    u_ctx _ _ _ a = u_ctx _ _ _ b /\ u_trace _ _ _ a = old ++ u_trace _ _ _ b /\ u_tasks _ _ _ a = u_tasks _ _ _ b /\
    u_serving _ _ _ a = u_serving _ _ _ b /\ u_cur _ _ _ a = u_cur _ _ _ b -> a = later old b.
  Proof.
    intros (E1 & E2 & E3 & E4 & E5 & E6 & E7 & E8 & E9 & E10 & E11 & E12). unfold later.
    rewrite <- E1, <- E2, <- E3, <- E4, <- E5, <- E6, <- E7, <- E8, <- E9, <- E10, <- E11, <- E12. destruct a. reflexivity.
  Qed.

  (** All that can happen from then on, and nothing else, can happen between a new client
      and a new device with the same context and the same tasks running. *)
  Theorem C95_clean_restart_partial :
    forall ls u cl es,
      u_run ls (restarted u1) = Some (u, cl, es) <->
      exists u', u_run' ls (usys_new Val Ctx SCtx (u_tasks _ _ _ u1) (u_ctx _ _ _ u1)) = Some (u', cl, es) /\
        u_client _ _ _ u = u_client _ _ _ u' /\ u_out _ _ _ u = u_out _ _ _ u' /\ u_in _ _ _ u = u_in _ _ _ u' /\
        u_acc _ _ _ u = u_acc _ _ _ u' /\ u_comps _ _ _ u = u_comps _ _ _ u' /\ u_reqs _ _ _ u = u_reqs _ _ _ u' /\ u_errs _ _ _ u = u_errs _ _ _ u' /\
        u_ctx _ _ _ u = u_ctx _ _ _ u' /\ u_trace _ _ _ u = old ++ u_trace _ _ _ u' /\ u_tasks _ _ _ u = u_tasks _ _ _ u' /\
        u_serving _ _ _ u = u_serving _ _ _ u' /\ u_cur _ _ _ u = u_cur _ _ _ u'.
  Proof.
    intros ls u cl es. assert (Hp : tx_pending Val SCtx enc txlen outcome old = false) by apply Hquiet.
    rewrite restarted_later, (run_later std can_spawn kkind spawn_ctxt d enc task cfg txlen rxlen consumes mps outcome old Hp).
    split.
    - destruct (u_run' ls _) as [[[u' cl'] es']|]; [|discriminate]. cbn [option_map fst snd]. intros E. injection E as <- <- <-.
      exists u'. split; [reflexivity|]. repeat split.
    - intros (u' & E & H). rewrite E. cbn [option_map fst snd]. f_equal. f_equal. f_equal.
      symmetry. apply later_eq. exact H.
  Qed.

  Hypothesis Hsizes : usb_sizes mps txlen rxlen.
  Variable eps : EndpointMap.
  Variable tin tout : TopicMap.
  Variable ea : list (EpArm Val Ctx).
  Variable ta : list (TpArm Val Ctx).
  Hypothesis Hdisp : dispatcher_for eps tin tout ea ta d.
  Hypothesis Hdev : device_ok std eps tout ea.
  Hypothesis Hkk : klen (d_kind _ _ d) <= klen kkind.
  Variable ls : list ULabel.
  Variable u : USys Val Ctx SCtx.
  Variable cl : list Label.
  Variable es : list (list Ev).
  Hypothesis Hrun : u_run ls (restarted u1) = Some (u, cl, es).
  Hypothesis Hlab : Forall (label_ok eps tin) cl.
  Hypothesis Hcount : (N.of_nat (typed cl) <= 2 ^ 32)%N.
  (** The tasks that are still running publish on topics and answer nobody. *)
  Hypothesis Hhand : handlers_ok std tout ea ta task (u_tasks _ _ _ u1).
  Hypothesis Herrkey : ~ In (compact (klen kkind) (k8_bytes (error_key std)))
         (map (fun k => compact (klen kkind) (k8_bytes k)) (map ep_resp (em_endpoints eps))).

  (** Then no call of the new program is given the answer to a call of the old one, although
      both count their requests from 0: a reply is what the device answered to this very
      request since the restart. *)
  Theorem C95_reply_after_restart_partial :
    errors_between_messages ls ->
    exists new, u_trace _ _ _ u = old ++ new /\
      forall r f, In (r, GotReply f) (results es) ->
        exists req resp body p,
          nth_error (issued 0 cl) r = Some (MkFrame (MkHeader (VKey8 req) (Seq4 (N.of_nat r))) body, resp) /\
          (exists missing, enc p = f_body f ++ missing) /\
          (none_interrupted new -> f_body f = enc p) /\
          answered std ea task d new req (N.of_nat r) body p.
  Proof.
    intros He. destruct (proj1 (C95_clean_restart_partial _ _ _ _) Hrun) as (u' & R & _ & _ & _ & _ & _ & _ & _ & _ & Et & _).
    exists (u_trace _ _ _ u'). split; [exact Et|].
    exact (C71_reply_is_the_answer _ _ _ _ _ _ _ _ _ _ _ _ _ _ Hsizes _ _ _ _ _ R eps tin tout ea ta Hdisp Hdev Hkk Hlab He Hhand Hcount Herrkey).
  Qed.

  (** And every call of the new program is answered in the end, if what it sends fits the
      device's buffer and the device sends its messages completely from the restart on. *)
  Theorem C95_answered_after_restart_partial :
    cfg_err_key cfg = error_key std -> tasks_answer std ea task -> 0 < cfg_depth cfg -> subscriptions_apart kkind std eps cl ->
    no_transfer_errors ls -> (forall l, u_own_step l = true -> u_step l u = None) ->
    frames_fit rxlen es -> (forall new, u_trace _ _ _ u = old ++ new -> all_sent new) ->
    (forall l, In l cl -> l <> LClose /\ (forall b, l <> LOutFail b) /\ l <> LInFail) ->
    forall r, r < length (issued 0 cl) -> ~ In (LCancel r) cl ->
      exists f, In (r, GotReply f) (results es) \/ In (r, GotError f) (results es).
  Proof.
    intros Hce Hans Hdepth Hsubs He Hrest Hfit Hsent. destruct (proj1 (C95_clean_restart_partial _ _ _ _) Hrun) as (u' & R & E).
    assert (El : u = later old u') by (apply later_eq; exact E).
    assert (Hrest' : forall l, u_own_step l = true -> u_step' l u' = None).
    { intros l Hl. specialize (Hrest l Hl). rewrite El in Hrest.
      rewrite (step_later std can_spawn kkind spawn_ctxt d enc task cfg txlen rxlen consumes mps outcome old ltac:(apply Hquiet)) in Hrest.
      destruct (u_step' l u') as [x|]; [discriminate|reflexivity]. }
    assert (Hs' : all_sent (u_trace _ _ _ u')) by (apply Hsent; rewrite El; reflexivity).
    exact (C72_every_call_is_answered_partial _ _ _ _ _ _ _ _ _ _ _ _ _ _ Hsizes _ _ _ _ _ R eps tin tout ea ta Hdisp Hdev Hkk Hlab Hce Hans Hdepth Hcount Hsubs He Hrest' Hfit Hs' Hhand Herrkey).
  Qed.
End T.
Print Assumptions C95_clean_restart_partial.
Print Assumptions C95_reply_after_restart_partial.
Print Assumptions C95_answered_after_restart_partial.

(** The program of [C71_C72_ex] ends with its last message received; another one is
    started and calls the same endpoints under the same sequence numbers.  What the handlers
    count in the device's context goes on: the first handler adds 8 to the 10 it had come to. *)
Definition r_after : list ULabel :=
  map UClient ([LRequest (xk 10) (xk 11) [8%N]; LRequest (xk 12) (xk 13) [7%N]] ++ y_out 0 ++ y_out 1) ++
  [UServe; UResume; UServe; UServe; UServe; UTask 2; UIn; UIn;
   URecv []; UClient (LWake (Some 0)); UClient (LTakeOk 0); URecv []; UClient (LWake (Some 0)); UClient (LTakeOk 1)].
Example C95_clean_restart_ex :
  exists u1 cl1 es1, uu_run u_history uu_bg = Some (u1, cl1, es1) /\ nothing_under_way s_enc 256 (fun _ => []) u1 /\
    length (results es1) = 3 /\ handlers_ok x_std x_tout x_ea x_ta s_task (u_tasks _ _ _ u1) /\
    exists u cl es, uu_run r_after (restarted u1) = Some (u, cl, es) /\ Forall (label_ok x_eps x_tin) cl /\ no_transfer_errors r_after /\
      (forall l, u_own_step l = true -> uu_step l u = None) /\ length (issued 0 cl) = 2 /\
      results es = [(0, GotReply (y_frame 11 0 [18%N])); (1, GotReply (y_frame 13 1 [14%N]))].
Proof.
  destruct (uu_run u_history uu_bg) as [[[u1 cl1] es1]|] eqn:R; [|vm_compute in R; discriminate].
  exists u1, cl1, es1. split; [reflexivity|]. vm_compute in R. injection R as <- <- <-.
  split; [repeat split|]. split; [reflexivity|].
  split. { destruct s_handlers_bg as (H1 & H2 & H3 & H4 & _). split; [exact H1|]. split; [exact H2|]. split; [exact H3|]. split; [exact H4|].
    intros p key seq pl Hp Hm. cbn in Hp. repeat (destruct Hp as [<-|Hp]; [inversion Hm|]). destruct Hp. }
  match goal with |- context [uu_run r_after ?x] => destruct (uu_run r_after x) as [[[u cl] es]|] eqn:R; [|vm_compute in R; discriminate] end.
  exists u, cl, es. split; [reflexivity|]. vm_compute in R. injection R as <- <- <-. split.
  { repeat (apply Forall_cons; [cbn; auto|]); try apply Forall_nil; [exists [117%N]|exists [118%N]]; cbn; auto. }
  split. { intros e. split; intros Hl; vm_compute in Hl; repeat (destruct Hl as [Hl|Hl]; [discriminate Hl|]); destruct Hl. }
  split; [u_rest_tac|]. split; reflexivity.
Qed.

(** Both conditions are needed, since every client counts its requests from 0.  Here the
    earlier program asks for the double of 6 and ends; the device's task answers when the
    next program has asked for the double of 20: its call returns 12. *)
Definition r_ended : list ULabel :=
  map UClient ([LRequest (xk 12) (xk 13) [6%N]] ++ y_out 0) ++ [UServe; UServe; UClient LClose].
Definition r_next : list ULabel :=
  map UClient ([LRequest (xk 12) (xk 13) [20%N]] ++ y_out 0) ++ [UTask 0; UIn; URecv []; UClient (LWake (Some 0)); UClient (LTakeOk 0)].
Theorem C95_old_answer_refuted :
  exists u1 cl1 es1 u cl es,
    uu_run r_ended uu_new = Some (u1, cl1, es1) /\ nothing_under_way s_enc 256 (fun _ => []) u1 /\
    uu_run r_next (restarted u1) = Some (u, cl, es) /\ no_transfer_errors r_next /\ Forall (label_ok x_eps x_tin) cl /\
    map (fun x => f_body (fst x)) (issued 0 cl) = [[20%N]] /\
    results es = [(0, GotReply (y_frame 13 0 [12%N]))] /\
    s_task 118 0%N (MkHeader (VKey8 (xk 12)) (Seq4 0)) 20%N = HSend (xk 13) (Seq4 0) (PVal 40%N) (fun _ => HRet tt).
Proof.
  destruct (uu_run r_ended uu_new) as [[[u1 cl1] es1]|] eqn:R; [|vm_compute in R; discriminate].
  destruct (uu_run r_next (restarted u1)) as [[[u cl] es]|] eqn:R2; [|vm_compute in R; injection R as <- <- <-; vm_compute in R2; discriminate].
  exists u1, cl1, es1, u, cl, es. split; [reflexivity|].
  vm_compute in R. injection R as <- <- <-. split; [repeat split|]. split; [exact R2|]. vm_compute in R2. injection R2 as <- <- <-.
  split. { intros e. split; intros Hl; vm_compute in Hl; repeat (destruct Hl as [Hl|Hl]; [discriminate Hl|]); destruct Hl. }
  split. { repeat (apply Forall_cons; [cbn; auto|]); try apply Forall_nil. exists [118%N]. cbn. auto. }
  repeat split.
Qed.
Print Assumptions C95_old_answer_refuted.

(** The same without tasks: the old program's answer waits, whole, in the device's
    endpoint.  The endpoint's handler has not even run for the new program's request when the
    call returns. *)
Definition r_ended2 : list ULabel :=
  map UClient ([LRequest (xk 10) (xk 11) [5%N]] ++ y_out 0) ++ [UServe; UResume; UServe; UClient LClose].
Definition r_next2 : list ULabel :=
  map UClient ([LRequest (xk 10) (xk 11) [6%N]] ++ y_out 0) ++ [UIn; URecv []; UClient (LWake (Some 0)); UClient (LTakeOk 0)].
Theorem C95_waiting_answer_refuted :
  exists u1 cl1 es1 u cl es m,
    uu_run r_ended2 uu_new = Some (u1, cl1, es1) /\
    u_out _ _ _ u1 = [] /\ u_cur _ _ _ u1 = None /\ u_in _ _ _ u1 = [m] /\
    uu_run r_next2 (restarted u1) = Some (u, cl, es) /\ no_transfer_errors r_next2 /\ Forall (label_ok x_eps x_tin) cl /\
    map (fun x => f_body (fst x)) (issued 0 cl) = [[6%N]] /\
    (exists f, results es = [(0, GotReply f)]) /\ invocations (u_trace _ _ _ u) = invocations (u_trace _ _ _ u1).
Proof.
  destruct (uu_run r_ended2 uu_new) as [[[u1 cl1] es1]|] eqn:R; [|vm_compute in R; discriminate].
  destruct (uu_run r_next2 (restarted u1)) as [[[u cl] es]|] eqn:R2; [|vm_compute in R; injection R as <- <- <-; vm_compute in R2; discriminate].
  exists u1, cl1, es1, u, cl, es. vm_compute in R. injection R as <- <- <-. eexists. split; [reflexivity|].
  split; [reflexivity|]. split; [reflexivity|]. split; [reflexivity|]. split; [exact R2|]. vm_compute in R2. injection R2 as <- <- <-.
  split. { intros e. split; intros Hl; vm_compute in Hl; repeat (destruct Hl as [Hl|Hl]; [discriminate Hl|]); destruct Hl. }
  split. { repeat (apply Forall_cons; [cbn; auto|]); try apply Forall_nil. exists [117%N]. cbn. auto. }
  split; [reflexivity|]. split; [eexists; reflexivity|reflexivity].
Qed.
Print Assumptions C95_waiting_answer_refuted.
