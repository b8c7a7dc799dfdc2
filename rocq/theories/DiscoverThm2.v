(** Concrete histories for the theorems of DiscoverThm.v. *)
From Coq Require Import NArith List Bool Arith Lia Permutation.
From Verif Require Import KeyModel HeaderModel KeySpec HeaderSpec MinKeyModel MinKeySpec
  SchemaModel MacroModel PostcardModel DispatchModel DispatchSpec DispatchThm SubModel SubSpec ClientModel ClientSpec ClientThm4.
From Verif Require Import DispatchModel DispatchSpec SystemModel SystemSpec SystemThm2 FlowSpec LiveSpec
  AsyncModel AsyncSpec MissSpec CodecModel CodecSpec CodecStdModel CodecProof KeyProof ReportModel ReportSpec ReportThm ReportThm2 DiscoverSpec DiscoverThm.
Import ListNotations.

(** The first device of ReportThm2.v, with handlers over values: three endpoints, one
    incoming and two outgoing topics, and the types that their payloads are made of. *)
Definition f_arm : EpArm value N :=
  MkEpArm value N (q_hash q_outer [117%N]) (q_hash q_unit [117%N]) (from_bytes q_outer) DispatchModel.Blocking 0 (fun ctx _ _ => HRet (ctx, VTup [])).
Definition f_tparm : TpArm value N :=
  MkTpArm value N (q_hash q_u32 [116%N]) (from_bytes q_u32) DispatchModel.Blocking 1 (fun ctx _ _ => HRet ctx).
Definition f_disp : Dispatcher value N :=
  ofail (MkDispatcher value N KK8 [] [] (MkMap [] [] [] [] KK8)) (define_dispatch value N (q_eps q_outer) q_tin q_tout [f_arm] [f_tparm]).
Definition f_net : Trace value N -> VarHeader -> Payload value -> TxRes := fun _ _ _ => TxOk.
Definition f_task (n : nat) (sc : N) (h : VarHeader) (v : value) : HProg value unit := HRet tt.
(** A task logs in the background. *)
Definition f_bg : list (HProg value unit) := [HSend (logging_key q_std) (Seq1 0) (PVal (VString [104%N])) (fun _ => HRet tt)].
Definition f_cfg : Config := MkConfig (error_key q_std) 8 false SK4.
Definition f_run := a_run value N N q_std f_net (fun _ _ => true) KK8 (fun c => (c, c)) f_disp payload_bytes f_task f_cfg.
Definition f_new : ASys value N N := asys_new value N N f_bg 0%N.

Lemma f_conf : config_ok (q_eps q_outer) q_tin q_tout [f_arm] [f_tparm] /\
  define_dispatch value N (q_eps q_outer) q_tin q_tout [f_arm] [f_tparm] = Done f_disp.
Proof. split; [unfold config_ok; repeat split; apply keys_ok_by; vm_compute; reflexivity|vm_compute; reflexivity]. Qed.
Lemma f_device : device_ok q_std (q_eps q_outer) q_tout [f_arm] /\ handlers_ok q_std q_tout [f_arm] [f_tparm] f_task f_bg /\
  leaves_schemas q_std [f_arm] [f_tparm] f_task f_bg.
Proof.
  split; [|split].
  - split; [exists [112%N]; vm_compute; auto|]. split; [exists [103%N]; vm_compute; auto|]. split; [vm_compute; auto|].
    intros x [<-|[]]. exists [117%N]. vm_compute. auto.
  - split; [intros x ctx h v key seq p [<-|[]] M; inversion M|]. split; [intros x ctx h v key seq p [<-|[]] M; inversion M|].
    split; [intros x sc h v key seq p _ _ M; inversion M|]. split; [intros x sc h v key seq p _ _ M; inversion M|].
    intros t key seq p [<-|[]] M. inversion M; subst; [split; [vm_compute; auto|cbn; lia]|].
    match goal with H : may_send (HRet _) _ _ _ |- _ => inversion H end.
  - split; [intros x [<-|[]]; discriminate|]. split; [intros x ctx h v seq p [<-|[]] M; inversion M|]. split; [intros x ctx h v seq p [<-|[]] M; inversion M|].
    split; [intros x sc h v seq p _ _ M; inversion M|]. split; [intros x sc h v seq p _ _ M; inversion M|].
    intros t seq p [<-|[]] M. inversion M; subst; try discriminate.
    match goal with H : may_send (HRet _) _ _ _ |- _ => inversion H end.
Qed.
Lemma f_more : klen (d_kind _ _ f_disp) <= klen KK8 /\ ping_req q_std <> schemas_req q_std /\
  (N.of_nat (length (advertised (d_map _ _ f_disp))) < 65536)%N /\ Forall sd_ok (advertised (d_map _ _ f_disp)) /\ error_apart KK8 q_std (q_eps q_outer) q_tout.
Proof.
  split; [vm_compute; lia|]. split; [discriminate|]. split; [vm_compute; reflexivity|]. split.
  - let l := eval vm_compute in (advertised (d_map _ _ f_disp)) in change (advertised (d_map _ _ f_disp)) with l.
    repeat (apply Forall_cons; [cbn; unfold name_ok, len_ok; cbn; repeat split; apply utf8_ok_text; reflexivity|]). apply Forall_nil.
  - unfold error_apart. vm_compute. intuition discriminate.
Qed.
Lemma f_resolvable : let m := d_map _ _ f_disp in
  Forall (ep_resolvable q_hash (q_builtin ++ dm_types m)) (dm_endpoints m) /\
  Forall (tp_resolvable q_hash (q_builtin ++ dm_types m)) (dm_topics_in m) /\
  Forall (tp_resolvable q_hash (q_builtin ++ dm_types m)) (dm_topics_out m).
Proof.
  assert (E : forall known path k, (existsb (fun t => key8_eqb (q_hash t path) k) known) = true -> exists t, stands_for q_hash known path k t).
  { intros known path k H. apply existsb_exists in H as (t & I & H). exists t. split; auto. apply key8_eqb_iff. exact H. }
  repeat split; repeat constructor; try (apply E; vm_compute; reflexivity).
Qed.

Definition f_topic := schema_topic q_std.
Definition f_sub (id : nat) := ASystem (SClient (LSub (SubscribeMulti f_topic 64))).
Definition f_recv (id : nat) := ASystem (SClient (LSub (ReceiveM id))).
Definition f_ask (r : nat) : list ALabel :=
  map ASystem (map SClient (LRequest (schemas_req q_std) (schemas_resp q_std) [] :: y_out r)).
Definition f_item : list ALabel := [AResume; ASystem (SRecv 0); f_recv 0].
(** A ping is on its way when the client subscribes and asks for the schemas; the log
    message of the background task comes between two items. *)
Definition f_before : list ALabel :=
  map ASystem (map SClient ([LRequest (q_hash q_u32 [112%N]) (q_hash q_u32 [112%N]) [7%N]] ++ y_out 0)).
Definition f_start : list ALabel :=
  f_ask 1 ++ [ASystem (SServe 0); AResume; ASystem (SServe 0); ASystem (SRecv 0); ASystem (SClient (LWake (Some 0))); ASystem (SClient (LTakeOk 0))].
Definition f_log : list ALabel := [ASystem (STask 0); AResume; ASystem (SRecv 0); ASystem (SClient (LWake None)); ASystem (SRecv 0); f_recv 0].
Definition f_end : list ALabel := [AResume; ASystem (SRecv 0); ASystem (SClient (LWake (Some 0))); ASystem (SClient (LTakeOk 1)); f_recv 0].
Definition f_after : list ALabel := f_start ++ concat (repeat f_item 5) ++ f_log ++ concat (repeat f_item 4) ++ f_end.

Ltac listed H := repeat (destruct H as [H|H]; [try discriminate H; injection H; intros; subst|]); try destruct H.
Example C76_ex :
  keeps_down (system_labels f_after) /\ down_in_order (system_labels f_after) /\
  exists a1 a2 a cl1 cl2 es1 es2 f,
    f_run f_before f_new = Some (a1, cl1, es1) /\
    f_run [f_sub 0] a1 = Some (a2, [LSub (SubscribeMulti f_topic 64)], [[EvSub (ORes (Subscribed 0))]]) /\
    f_run f_after a2 = Some (a, cl2, es2) /\
    Forall (label_ok (q_eps q_outer) q_tin) cl1 /\ Forall (label_ok (q_eps q_outer) q_tin) cl2 /\ still_receiving (cl1 ++ cl2) /\
    only_discovery q_std (cl1 ++ LSub (SubscribeMulti f_topic 64) :: cl2) 1 /\ length (issued 0 cl1) <= 1 /\
    kept_multi cl2 0 /\ only_topic KK8 f_topic (cl1 ++ LSub (SubscribeMulti f_topic 64) :: cl2) /\
    (forall d', ~ In (LSub (SubscribeMulti f_topic d')) cl1) /\ keeps_up_multi cl2 es2 f_topic 0 64 /\ found_empty_multi cl2 es2 0 /\
    In (1, GotReply f) (results (es1 ++ [EvSub (ORes (Subscribed 0))] :: es2)) /\
    (forall w h x r0, In (EvSend w h (PSchemaData x) r0) (y_trace _ _ _ (a_sys _ _ _ a)) -> r0 = TxOk) /\
    length (heard cl2 es2 0) = 10.
Proof.
  split. { intros l Hl. vm_compute in Hl. repeat (destruct Hl as [<-|Hl]; [exact Logic.I|]). destruct Hl. }
  split. { intros i Hi. vm_compute in Hi. repeat (destruct Hi as [Hi|Hi]; [try discriminate; injection Hi as <-; reflexivity|]). destruct Hi. }
  destruct (f_run f_before f_new) as [[[a1 cl1] es1]|] eqn:R; [|vm_compute in R; discriminate].
  vm_compute in R. injection R as <- <- <-.
  do 8 eexists. split; [reflexivity|]. split; [vm_compute; reflexivity|]. split; [vm_compute; reflexivity|].
  split. { repeat (apply Forall_cons; [cbn; auto|]); try apply Forall_nil. exists [112%N]. vm_compute. auto. }
  split. { repeat (apply Forall_cons; [cbn; auto|]); try apply Forall_nil. exists [103%N]. vm_compute. auto. }
  split. { split; intros H; cbn in H; intuition discriminate. }
  split. { split.
    - eexists. split; vm_compute; reflexivity.
    - intros r' f resp H E. destruct r' as [|[|[|r']]]; cbn in H; try discriminate H; try reflexivity. injection H as <- <-. discriminate E. }
  split; [cbn; lia|].
  split. { intros H; cbn in H; intuition discriminate. }
  split. { intros k' H _. cbn in H. destruct H as [<-|[]]. reflexivity. }
  split. { intros dd H; cbn in H; intuition discriminate. }
  split. { intros n. eapply Nat.le_trans; [|apply Nat.le_add_l]. do 60 (destruct n as [|n]; [vm_compute; lia|]). vm_compute. lia. }
  split. { match goal with |- found_empty_multi ?c ?e _ => exists (removelast c), (removelast e); split; reflexivity end. }
  split. { vm_compute. right. left. reflexivity. }
  split. { intros w h x r0 H. vm_compute in H. listed H; reflexivity. }
  vm_compute. reflexivity.
Qed.

(** The link loses the first item, a type that is nested in another: the report is
    returned without it, and its endpoints and topics are right.  If it loses an
    endpoint, no report is returned. *)
Definition f_lose : list ALabel := [AResume; ASystem (SLoseDown 0)].
Definition f_lossy (n : nat) : list ALabel :=
  f_before ++ [f_sub 0] ++ f_start ++ concat (repeat f_item n) ++ f_lose ++ concat (repeat f_item (9 - n)) ++ f_end.
Definition f_report (outs : list RecvOutcome) (tot : SchemaTotals) := @get_schema_report q_hash q_builtin (fun l => l) unit true (Some outs) (inl tot).
Example C76_lossy_ex :
  set_order (fun l => l) /\ down_in_order (system_labels (f_lossy 0)) /\
  exists a cl es f tot rpt,
    f_run (f_lossy 0) f_new = Some (a, cl, es) /\ Forall (label_ok (q_eps q_outer) q_tin) cl /\
    only_discovery q_std cl 1 /\ subscribed_multi cl es f_topic 0 /\
    In (1, GotReply f) (results es) /\ from_bytes_totals (f_body f) = Some tot /\
    listened cl es 0 (heard cl es 0 ++ [Elapsed]) /\
    f_report (heard cl es 0 ++ [Elapsed]) tot = Done (inl rpt) /\
    length (rp_endpoints rpt) = 3 /\ ~ In q_inner (rp_types rpt) /\ In q_inner (dm_types (d_map _ _ f_disp)).
Proof.
  split; [intros l; apply Permutation_refl|].
  split. { intros i Hi. vm_compute in Hi. repeat (destruct Hi as [Hi|Hi]; [try discriminate; injection Hi as <-; reflexivity|]). destruct Hi. }
  do 6 eexists. split; [vm_compute; reflexivity|].
  split. { repeat (apply Forall_cons; [cbn; auto|]); try apply Forall_nil; [exists [112%N]|exists [103%N]]; vm_compute; auto. }
  split. { split.
    - eexists. split; vm_compute; reflexivity.
    - intros r' f resp H E. destruct r' as [|[|[|r']]]; cbn in H; try discriminate H; try reflexivity. injection H as <- <-. discriminate E. }
  split. { exists 64. do 7 right. left. reflexivity. }
  split. { vm_compute. right. left. reflexivity. }
  split; [vm_compute; reflexivity|].
  split. { eexists _, []. rewrite app_nil_r. split; reflexivity. }
  split; [vm_compute; reflexivity|]. split; [vm_compute; reflexivity|]. split.
  - vm_compute. intros I. repeat (destruct I as [I|I]; [discriminate I|]). destruct I.
  - vm_compute. auto.
Qed.
Example C76_lossy_row_ex :
  exists a cl es f tot,
    f_run (f_lossy 4) f_new = Some (a, cl, es) /\ In (1, GotReply f) (results es) /\ from_bytes_totals (f_body f) = Some tot /\
    length (heard cl es 0) = 9 /\ f_report (heard cl es 0 ++ [Elapsed]) tot = Done (inr SLostData).
Proof.
  do 5 eexists. split; [vm_compute; reflexivity|]. split; [vm_compute; right; left; reflexivity|]. repeat split; vm_compute; reflexivity.
Qed.

(** ** Two discoveries at once

    Two tasks ask for the report through one client at the same time.  Nothing is lost,
    both keep up, the device is the same - and both are told that data was lost, for each
    hears what was meant for the other, too. *)
Definition f_two_item : list ALabel := [AResume; ASystem (SRecv 0); f_recv 0; f_recv 1].
Definition f_two_end (r : nat) : list ALabel := [AResume; ASystem (SRecv 0); ASystem (SClient (LWake (Some 0))); ASystem (SClient (LTakeOk r))].
Definition f_two : list ALabel :=
  [f_sub 0; f_sub 1] ++ f_ask 0 ++ f_ask 1 ++
  [ASystem (SServe 0)] ++ concat (repeat f_two_item 10) ++ f_two_end 0 ++
  [ASystem (SServe 0)] ++ concat (repeat f_two_item 10) ++ f_two_end 1 ++ [f_recv 0; f_recv 1].
Theorem C76_two_at_once_refuted :
  keeps_down (system_labels f_two) /\ down_in_order (system_labels f_two) /\
  exists a cl es f0 f1 tot,
    f_run f_two f_new = Some (a, cl, es) /\ Forall (label_ok (q_eps q_outer) q_tin) cl /\ still_receiving cl /\
    asks_schemas q_std cl 0 /\ asks_schemas q_std cl 1 /\
    subscribed_multi cl es f_topic 0 /\ subscribed_multi cl es f_topic 1 /\
    never_lagged cl es 0 /\ never_lagged cl es 1 /\ never_closed cl es 0 /\ never_closed cl es 1 /\
    In (0, GotReply f0) (results es) /\ from_bytes_totals (f_body f0) = Some tot /\
    In (1, GotReply f1) (results es) /\ from_bytes_totals (f_body f1) = Some tot /\
    errors tot = 0%N /\
    heard cl es 0 = map Got (advertised (d_map _ _ f_disp) ++ advertised (d_map _ _ f_disp)) /\ heard cl es 1 = heard cl es 0 /\
    (forall hash builtin order, set_order order ->
       forall rpt, @get_schema_report hash builtin order unit true (Some (heard cl es 0 ++ [Elapsed])) (inl tot) <> Done (inl rpt)) /\
    f_report (heard cl es 0 ++ [Elapsed]) tot = Done (inr SLostData).
Proof.
  split. { intros l Hl. vm_compute in Hl. repeat (destruct Hl as [<-|Hl]; [exact Logic.I|]). destruct Hl. }
  split. { intros i Hi. vm_compute in Hi. repeat (destruct Hi as [Hi|Hi]; [try discriminate; injection Hi as <-; reflexivity|]). destruct Hi. }
  do 6 eexists. split; [vm_compute; reflexivity|].
  split. { repeat (apply Forall_cons; [cbn; auto|]); try apply Forall_nil; exists [103%N]; vm_compute; auto. }
  split. { split; intros H; cbn in H; intuition discriminate. }
  split. { eexists. split; vm_compute; reflexivity. }
  split. { eexists. split; vm_compute; reflexivity. }
  split. { exists 64. left. reflexivity. }
  split. { exists 64. right. left. reflexivity. }
  split. { intros n H. cbn in H. intuition discriminate. }
  split. { intros n H. cbn in H. intuition discriminate. }
  split. { intros H. cbn in H. intuition discriminate. }
  split. { intros H. cbn in H. intuition discriminate. }
  split; [vm_compute; auto|]. split; [vm_compute; reflexivity|]. split; [vm_compute; auto|]. split; [vm_compute; reflexivity|]. split; [reflexivity|].
  match goal with |- ?A /\ _ => assert (Eh : A) by (vm_compute; reflexivity) end.
  split; [exact Eh|]. split; [vm_compute; reflexivity|]. split; [|vm_compute; reflexivity].
  intros hash builtin order Ho. apply (C43_two_calls_fail hash builtin order Ho unit (d_map _ _ f_disp)).
  - rewrite Eh. clear. generalize (advertised (d_map value N f_disp)). intros l.
    assert (C : forall x, collect (map Got x ++ [Elapsed]) = x) by (induction x as [|y x IH]; cbn; congruence).
    rewrite C. assert (X : forall x y : list SchemaData, Mix x y (x ++ y)).
    { induction x as [|z x IH]; intros y; cbn; [|constructor; apply IH]. induction y; constructor; auto. }
    apply X.
  - vm_compute. reflexivity.
  - vm_compute. discriminate.
Qed.
Print Assumptions C76_two_at_once_refuted.
