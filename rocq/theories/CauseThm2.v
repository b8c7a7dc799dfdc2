(** Concrete histories for C92. *)
From Coq Require Import NArith ZArith List Bool Arith Lia.
From Verif Require Import KeyModel HeaderModel KeySpec HeaderSpec MinKeyModel MinKeySpec
  SchemaModel MacroModel PostcardModel DispatchModel DispatchSpec DispatchThm SubModel SubSpec ClientModel ClientSpec ClientThm4 UsbSpec.
From Verif Require Import DispatchModel DispatchSpec SystemModel SystemSpec SystemProof SystemThm SystemThm2 FlowSpec LiveSpec LiveThm2
  AsyncModel AsyncSpec AsyncThm AsyncThm2 CauseSpec CauseThm.
Import ListNotations.

Lemma s_fit ls a cl es : s_arun ls a_start = Some (a, cl, es) -> dispatcher_for x_eps x_tin x_tout x_ea x_ta x_disp ->
  device_ok x_std x_eps x_tout x_ea -> handlers_ok x_std x_tout x_ea x_ta s_task s_bg -> klen (d_kind _ _ x_disp) <= klen KK1 ->
  Forall (label_ok x_eps x_tin) cl -> (N.of_nat (typed cl) <= 2 ^ 32)%N ->
  ~ In (compact (klen KK1) (k8_bytes (error_key x_std)))
       (map (fun k => compact (klen KK1) (k8_bytes k)) (map ep_resp (em_endpoints x_eps))) ->
  uncut (system_labels ls) -> down_in_order (system_labels ls) ->
  fit_together x_std KK1 s_enc x_ea x_ta s_task x_disp True cl es (y_trace _ _ _ (a_sys _ _ _ a)).
Proof.
  intros R Dp D1 D2 K L N1 Er U D. eapply fit_mono; [intros _; exact U|].
  exact (C92_cause_before_effect x_std (fun _ _ => true) KK1 (fun c => (c, c)) x_disp s_enc s_task s_bg s_cfg 0%N cl es x_eps x_tin x_tout x_ea x_ta
    Dp D1 D2 K L N1 Er x_net ls a R D).
Qed.

(** The history of C73_ex, whose hypotheses are those of C92.  After 30 steps the client
    has received the background task's 77 and then the answer of the task of request 1;
    77 was transmitted before that answer, and all that it receives later, also the
    message on the same topic, after it. *)
Example C92_ex :
  config_ok x_eps x_tin x_tout x_ea x_ta /\ define_dispatch N N x_eps x_tin x_tout x_ea x_ta = Done x_disp /\
  device_ok x_std x_eps x_tout x_ea /\ handlers_ok x_std x_tout x_ea x_ta s_task s_bg /\
  klen (d_kind _ _ x_disp) <= klen KK1 /\
  ~ In (compact (klen KK1) (k8_bytes (error_key x_std)))
       (map (fun k => compact (klen KK1) (k8_bytes k)) (map ep_resp (em_endpoints x_eps))) /\
  uncut (system_labels a_history) /\ down_in_order (system_labels a_history) /\
  exists a cl es, s_arun a_history a_start = Some (a, cl, es) /\
    Forall (label_ok x_eps x_tin) cl /\ (N.of_nat (typed cl) <= 2 ^ 32)%N /\
    results (firstn 30 es) = [(1, GotReply (y_frame 13 1 [12%N]))] /\
    map f_body (arrived (firstn 30 cl)) = [[77%N]; [12%N]] /\
    map f_body (arrived (skipn 30 cl)) = [[78%N]; [9%N]; [14%N]; [255%N]] /\
    fit_together x_std KK1 s_enc x_ea x_ta s_task x_disp True cl es (y_trace _ _ _ (a_sys _ _ _ a)).
Proof.
  destruct C73_ex as (C & E & D1 & D2 & K & _ & _ & _ & Er & _ & U & D & a & cl & es & R & L & N1 & _).
  do 8 (split; [assumption|]). exists a, cl, es. split; [exact R|]. split; [exact L|]. split; [exact N1|].
  assert (X : results (firstn 30 es) = [(1, GotReply (y_frame 13 1 [12%N]))] /\
    map f_body (arrived (firstn 30 cl)) = [[77%N]; [12%N]] /\
    map f_body (arrived (skipn 30 cl)) = [[78%N]; [9%N]; [14%N]; [255%N]]).
  { clear - R. vm_compute in R. injection R as <- <- <-. vm_compute. auto. }
  destruct X as (X1 & X2 & X3). do 3 (split; [assumption|]).
  exact (s_fit _ _ _ _ R (C09_made_for _ _ _ _ _ _ _ _ C E) D1 D2 K L N1 Er U D).
Qed.

(** Over a link that does not keep the order (all else as above), a message may arrive
    after a reply that was transmitted after it. *)
Definition o_history : list ALabel :=
  map ASystem (map SClient (LRequest (xk 12) (xk 13) [6%N] :: y_out 0) ++
    [SServe 0; STask 0; STask 1; SRecv 1; SClient (LWake (Some 0)); SClient (LTakeOk 0); SRecv 0]).
Theorem C92_out_of_order_refuted :
  exists ls a cl es,
    config_ok x_eps x_tin x_tout x_ea x_ta /\ define_dispatch N N x_eps x_tin x_tout x_ea x_ta = Done x_disp /\
    device_ok x_std x_eps x_tout x_ea /\ handlers_ok x_std x_tout x_ea x_ta s_task s_bg /\
    klen (d_kind _ _ x_disp) <= klen KK1 /\
    s_arun ls a_start = Some (a, cl, es) /\ Forall (label_ok x_eps x_tin) cl /\ uncut (system_labels ls) /\
    ~ down_in_order (system_labels ls) /\
    ~ fit_together x_std KK1 s_enc x_ea x_ta s_task x_disp (uncut (system_labels ls)) cl es (y_trace _ _ _ (a_sys _ _ _ a)).
Proof.
  destruct C73_ex as (C & E & D1 & D2 & K & _).
  destruct (s_arun o_history a_start) as [[[a cl] es]|] eqn:R; [|vm_compute in R; discriminate].
  exists o_history, a, cl, es. do 5 (split; [assumption|]). split; [exact R|].
  vm_compute in R. injection R as <- <- <-. split.
  { repeat (apply Forall_cons; [cbn; auto|]); try apply Forall_nil. exists [118%N]. cbn. auto. }
  split. { intros i n Hl. vm_compute in Hl. repeat (destruct Hl as [Hl|Hl]; [discriminate|]). destruct Hl. }
  split. { intros D. specialize (D 1). discriminate D. vm_compute. auto 20. }
  intros F. destruct (F 10) as (b & af & Et & _ & _ & G). clear F.
  destruct (G 0 (y_frame 13 0 [12%N])) as (t1 & w & h & p & res & t2 & req & resp & body & Eb & Eh & _ & Hi & _ & ms & Sm & Fm). { vm_compute. auto. }
  cbn in Hi. injection Hi as <- <- <-. subst h. rewrite Eb in Et. cbn [y_trace a_sys] in Et. clear G Eb.
  cbn in Fm. inversion Fm as [|? m ? ms' M Fm']; subst. inversion Fm'; subst. destruct M as [M _]. cbn [f_hdr] in M.
  assert (In m (messages (t2 ++ af))) as Hin. { clear - Sm. remember [m] as l. revert m Heql. induction Sm; intros; [discriminate| |right; eauto]. injection Heql as <- _. now left. }
  destruct t1 as [|e1 t1]; [vm_compute in Et; discriminate|]. destruct t1 as [|e2 t1]; [vm_compute in Et; discriminate|].
  destruct t1 as [|e3 t1]; [|exfalso; vm_compute in Et; injection Et as _ _ _ Et; destruct t1; discriminate Et].
  cbn in Et. injection Et as _ _ _ _ _ Et. rewrite <- Et in Hin. destruct Hin.
Qed.
Print Assumptions C92_out_of_order_refuted.
