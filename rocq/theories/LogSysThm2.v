(** The logging example, and concrete histories for the theorems of LogSysThm.v. *)
From Coq Require Import NArith List Bool Arith Lia Permutation.
From Verif Require Import KeyModel HeaderModel KeySpec HeaderSpec MinKeyModel MinKeySpec
  SchemaModel MacroModel PostcardModel DispatchModel DispatchSpec DispatchProof DispatchThm SubModel SubSpec ClientModel ClientSpec ClientThm4
  UsbModel UsbSpec NusbRxModel LogModel LogThm.
From Verif Require Import DispatchModel DispatchSpec SystemModel SystemSpec SystemProof SystemThm SystemThm2 FlowSpec LiveSpec LiveProof LiveThm LiveThm2
  AsyncModel AsyncSpec AsyncProof AsyncThm AsyncThm2 MissSpec MissThm MissThm2 UsbSysModel UsbSysSpec UsbSysProof UsbSysLive UsbSysThm UsbSysThm2 UsbMissThm UsbMissThm2
  ThreadsSpec LogSysModel LogSysSpec LogSysThm.
Import ListNotations.

(** *** The firmware of the logging example *)
Lemma decimal_short fuel : forall n, length (decimal_digits fuel n) <= fuel.
Proof.
  induction fuel as [|fuel IH]; intros n; cbn [decimal_digits length]; auto. destruct (n <? 10)%N; cbn [length]; [lia|].
  rewrite app_length. cbn [length]. specialize (IH (n / 10)%N). lia.
Qed.

(** Every one of its calls transmits, whatever the counters, for all lengths of keys
    (transmit buffers of 1024 bytes, 32-bit [usize]). *)
Theorem C88_example_logs_go_out :
  forall lkey kk n ctr q, Forall byte_ok (k8_bytes lkey) -> (q < 65536)%N ->
    Forall (goes_out 4 lkey kk 1024) (numbered q (logging_rounds n ctr)).
Proof.
  intros lkey kk n ctr q Hk. revert ctr q. induction n as [|n IH]; intros ctr q Hq; cbn [logging_rounds numbered]; constructor.
  - split; [exact Hq|]. unfold logging_call. cbn [snd fst]. destruct (negb _); cbn [formats_well].
    + split; [exact Logic.I|]. unfold log_frame. cbn [snd fst].
      destruct (proj2 (C45_str_partial 4 lkey (repeat 0%N 1024) q kk hello_world)) as [f E]; [rewrite repeat_length; destruct kk; vm_compute; lia|].
      exists f. rewrite E. reflexivity.
    + split. { intros [H|[H|[]]]; discriminate. }
      unfold log_frame. cbn [snd fst]. pose proof (decimal_short 5 ctr) as D. fold (decimal ctr) in D.
      assert (Lp : length (produced [Text formatted; Text (decimal ctr)]) <= 16).
      { cbn [produced]. rewrite !app_length. cbn [length formatted]. lia. }
      apply C45_small_logs_partial; auto; rewrite repeat_length.
      * reflexivity.
      * lia.
      * replace (1024 <? 300) with false by reflexivity. lia.
      * destruct kk; cbn [klen]; lia.
  - apply IH. apply N.mod_lt. discriminate.
Qed.
Print Assumptions C88_example_logs_go_out.

(** And [decimal] is the number in decimal digits. *)
Definition value_of (digits : list N) : N := fold_left (fun a c => 10 * a + (c - 48))%N digits 0%N.
Lemma decimal_value fuel : forall n, (n < 10 ^ N.of_nat fuel)%N -> fuel <> 0 ->
  value_of (decimal_digits fuel n) = n /\ Forall (fun c => 48 <= c <= 57)%N (decimal_digits fuel n).
Proof.
  induction fuel as [|fuel IH]; intros n Hn Hf; [congruence|]. cbn [decimal_digits]. unfold digit.
  destruct (N.ltb_spec n 10) as [L|L].
  - split; [cbn [value_of fold_left]; unfold value_of; cbn [fold_left]; lia|]. repeat constructor; lia.
  - assert (F : fuel <> 0). { intros ->. cbn in Hn. lia. }
    destruct (IH (n / 10)%N) as [V R]; auto.
    { apply N.div_lt_upper_bound; [discriminate|]. rewrite Nat2N.inj_succ, N.pow_succ_r' in Hn. exact Hn. }
    pose proof (N.mod_lt n 10 ltac:(discriminate)) as M. split.
    + unfold value_of in *. rewrite fold_left_app, V. cbn [fold_left]. pose proof (N.div_mod n 10 ltac:(discriminate)). lia.
    + apply Forall_app. split; auto. repeat constructor; lia.
Qed.
Lemma odd_land n : negb (N.land n 1 =? 0)%N = N.odd n.
Proof. change 1%N with (N.ones 1). rewrite N.land_ones. change (2 ^ 1)%N with 2%N. rewrite <- N.bit0_odd, <- N.bit0_mod. destruct (N.testbit n 0); reflexivity. Qed.
Lemma rounds_nth n : forall ctr j, j < n ->
  nth_error (logging_rounds n ctr) j = Some (logging_call (match j with O => ctr | _ => (ctr + N.of_nat j) mod 65536 end)%N).
Proof.
  induction n as [|n IH]; intros ctr j Hj; [lia|]. destruct j as [|j]; cbn [logging_rounds nth_error]; [reflexivity|].
  rewrite IH by lia. destruct j as [|j]; [reflexivity|]. do 2 f_equal. rewrite N.add_mod_idemp_l by discriminate. f_equal. lia.
Qed.
(** The texts: the [j]-th call (from 0) says hello if [j] is odd, and gives [j], modulo
    65536, in decimal digits if it is even. *)
Theorem C88_example_texts :
  forall n j c, nth_error (logging_rounds n 0) j = Some c ->
    if Nat.odd j then call_text c = says_hello
    else exists digits, call_text c = says_count digits /\ Forall (fun c => 48 <= c <= 57)%N digits /\
           value_of digits = (N.of_nat j mod 65536)%N.
Proof.
  intros n j c H. assert (Hj : j < n).
  { assert (Ln : forall n ctr, length (logging_rounds n ctr) = n) by (clear; induction n; intros; cbn; auto).
    rewrite <- (Ln n 0%N). apply nth_error_Some. congruence. }
  rewrite rounds_nth in H by exact Hj. injection H as <-.
  set (m := match j with O => 0 | _ => _ end%N). assert (E : m = (N.of_nat j mod 65536)%N) by (destruct j; [reflexivity|unfold m; f_equal; lia]).
  assert (Hm : (m < 10 ^ N.of_nat 5)%N). { rewrite E. eapply N.lt_trans; [apply N.mod_lt; discriminate|reflexivity]. }
  unfold logging_call. rewrite odd_land.
  replace (N.odd m) with (Nat.odd j).
  - destruct (Nat.odd j); [reflexivity|]. exists (decimal m). cbn [call_text map concat]. rewrite app_nil_r. split; [reflexivity|].
    destruct (decimal_value 5 m Hm ltac:(discriminate)) as [V R]. split; [exact R|]. rewrite <- E. exact V.
  - rewrite E. clear. rewrite <- !N.bit0_odd, <- Nat.bit0_odd. 
    pose proof (N.div_mod (N.of_nat j) 65536 ltac:(discriminate)) as D.
    rewrite N.bit0_odd, Nat.bit0_odd. replace (Nat.odd j) with (N.odd (N.of_nat j)).
    + rewrite D at 1. rewrite N.odd_add, N.odd_mul. change (N.odd 65536) with false. cbn [andb]. apply xorb_false_l.
    + unfold N.odd, Nat.odd. f_equal. clear. induction j as [j IH] using lt_wf_ind. destruct j as [|[|j]]; [reflexivity|reflexivity|].
      cbn [Nat.even]. rewrite <- IH by lia. rewrite !Nat2N.inj_succ. change (N.even (N.succ (N.succ (N.of_nat j))) = N.even (N.of_nat j)). now rewrite N.even_succ_succ.
Qed.
Print Assumptions C88_example_texts.

(** *** The example over USB *)
Notation bytes := (list N).
Definition g_disp : Dispatcher bytes N :=
  Eval vm_compute in
  match define_dispatch bytes N x_eps x_tin x_tout [] [] with Done d => d | Panicked => MkDispatcher bytes N KK8 [] [] (MkMap [] [] [] [] KK8) end.
Definition g_enc (p : Payload bytes) : list N := match p with PVal v => v | _ => [] end.
Definition g_task (n : nat) (sc : N) (h : VarHeader) (v : bytes) : HProg bytes unit := HRet tt.
Definition g_key : Key8 := logging_key x_std.
Definition g_bg (n : nat) : list (HProg bytes unit) := [logger (fun b => b) 4 g_key KK1 1024 (numbered 0 (logging_rounds n 0))].
Definition g_run := u_run bytes N N x_std (fun _ _ => true) KK1 (fun c => (c, c)) g_disp g_enc g_task s_cfg 1024 128 true None (fun _ => []).
Definition g_step := u_step bytes N N x_std (fun _ _ => true) KK1 (fun c => (c, c)) g_disp g_enc g_task s_cfg 1024 128 true None (fun _ => []).
Lemma g_conf : config_ok x_eps x_tin x_tout (@nil (EpArm bytes N)) (@nil (TpArm bytes N)) /\ define_dispatch bytes N x_eps x_tin x_tout [] [] = Done g_disp.
Proof.
  split; [|vm_compute; reflexivity]. destruct x_config as (C & _). unfold config_ok, keys_ok in *. repeat split; repeat constructor; cbn; repeat constructor.
Qed.
Lemma logger_sends usz k kk txlen calls key seq p : may_send (logger (fun b : bytes => b) usz k kk txlen calls) key seq p ->
  key = k /\ exists c, In c calls /\ seq = Seq2 (fst c).
Proof.
  induction calls as [|c tl IH]; cbn [logger]; intros H; inversion H; subst.
  - split; auto. exists c. split; [left|]; auto.
  - match goal with X : may_send _ _ _ _ |- _ => destruct (IH X) as (E & c' & Hc & Es) end. split; auto. exists c'. split; [right|]; auto.
Qed.
Lemma numbered_lt calls : forall q c, (q < 65536)%N -> In c (numbered q calls) -> (fst c < 65536)%N.
Proof.
  induction calls as [|x tl IH]; intros q c Hq; cbn [numbered In]; [tauto|]. intros [<-|H]; [exact Hq|]. eapply IH; [|exact H]. apply N.mod_lt. discriminate.
Qed.
Lemma g_device n : device_ok x_std x_eps x_tout (@nil (EpArm bytes N)) /\ handlers_ok x_std x_tout (@nil (EpArm bytes N)) (@nil (TpArm bytes N)) g_task (g_bg n) /\
  only_publisher x_std KK1 (@nil (EpArm bytes N)) (@nil (TpArm bytes N)) g_task (g_bg n) g_key 0 /\ is_topic_out x_tout g_key.
Proof.
  split. { destruct s_device as ((D1 & D2 & D3 & _) & _). repeat split; auto. intros a []. }
  split.
  { repeat split; try (intros; match goal with X : In _ [] |- _ => destruct X end).
    all: intros; match goal with X : In _ (g_bg _) |- _ => destruct X as [<-|[]] end.
    all: match goal with X : may_send _ _ _ _ |- _ => apply logger_sends in X as (-> & c & Hc & ->) end.
    - cbn. auto.
    - cbn. eapply numbered_lt; [|exact Hc]. reflexivity. }
  split; [|cbn; auto]. split; [discriminate|]. split; [vm_compute; discriminate|].
  repeat (split; [intros; match goal with X : In _ [] |- _ => destruct X end|]).
  intros j t seq p Nj Hj. destruct j as [|[|j]]; [congruence|discriminate|discriminate].
Qed.

Definition g_sub (depth : nat) := LSub (SubscribeMulti g_key depth).
Definition g_before : list ULabel := [UTask 0; UIn; URecv []; UClient (LWake None)].
Definition g_log : list ULabel := [UTask 0; UIn; URecv []].
Definition g_recv : ULabel := UClient (LSub (ReceiveM 0)).
Definition g_after : list ULabel := g_log ++ g_log ++ [g_recv; g_recv; g_recv].

(** Three rounds, of which the first is over when the host subscribes. *)
Example C88_ex :
  usb_sizes None 1024 128 /\ dispatcher_for x_eps x_tin x_tout [] [] g_disp /\ klen (d_kind _ _ g_disp) <= klen KK1 /\
  Forall byte_ok (k8_bytes g_key) /\ no_transfer_errors g_before /\ no_transfer_errors g_after /\
  exists u1 u2 u cl1 cl2 es1 es2,
    g_run g_before (usys_new bytes N N (g_bg 3) 0%N) = Some (u1, cl1, es1) /\
    g_step (UClient (g_sub 64)) u1 = Some (u2, Some (g_sub 64, [EvSub (ORes (Subscribed 0))])) /\
    g_run g_after u2 = Some (u, cl2, es2) /\ all_sent (u_trace _ _ _ u) /\
    Forall (label_ok x_eps x_tin) cl1 /\ Forall (label_ok x_eps x_tin) cl2 /\ still_receiving (cl1 ++ cl2) /\
    kept_multi cl2 0 /\ only_topic KK1 g_key (cl1 ++ g_sub 64 :: cl2) /\
    (forall d', ~ In (LSub (SubscribeMulti g_key d')) cl1) /\ keeps_up_multi cl2 es2 g_key 0 64 /\ found_empty_multi cl2 es2 0 /\
    (forall l, u_own_step l = true -> g_step l u = None) /\
    length (filter (of_topic g_key) (arrived cl1)) = 1 /\
    print_logs (recvs cl2 es2 0) = ([hello_world; formatted ++ [50%N]], true) /\
    map (fun f => hdr_seq (f_hdr f)) (given_multi cl2 es2 0) = [Seq2 1; Seq2 2].
Proof.
  destruct g_conf as [C E].
  split. { repeat split; auto; cbn; lia. }
  split; [exact (C09_made_for _ _ _ _ _ _ _ _ C E)|]. split; [cbn; lia|]. split; [repeat constructor|].
  split. { intros e. split; intros H; not_there H. }
  split. { intros e. split; intros H; not_there H. }
  destruct (g_run g_before (usys_new bytes N N (g_bg 3) 0%N)) as [[[u1 cl1] es1]|] eqn:R; [|vm_compute in R; discriminate].
  vm_compute in R. injection R as <- <- <-.
  do 7 eexists. split; [reflexivity|]. split; [vm_compute; reflexivity|]. split; [vm_compute; reflexivity|].
  split. { intros w h p r Hi. cbn in Hi. repeat (destruct Hi as [Hi|Hi]; [try discriminate Hi; injection Hi as _ _ _ <-; reflexivity|]). destruct Hi. }
  split. { repeat (apply Forall_cons; [cbn; auto|]); apply Forall_nil. }
  split. { repeat (apply Forall_cons; [cbn; auto|]); apply Forall_nil. }
  split. { split; intros H; not_there H. }
  split. { intros H; not_there H. }
  split. { intros k' H _. cbn in H. destruct H as [<-|[]]. reflexivity. }
  split. { intros dd H; not_there H. }
  split. { intros n. do 12 (destruct n as [|n]; [vm_compute; lia|]). vm_compute. lia. }
  split. { match goal with |- found_empty_multi ?c ?e _ => exists (removelast c), (removelast e); split; reflexivity end. }
  split; [u_rest_tac|]. repeat split; vm_compute; reflexivity.
Qed.

(** The loop of the host program ends at the first error, of whatever kind, and then says
    that the device is disconnected.  If the host is so slow that 65 messages come before
    it asks for the first then the loop ends at once, with nothing printed, although the
    device is connected and goes on logging, and the subscription goes on giving
    messages. *)
Definition g_slow : list ULabel := concat (repeat g_log 65) ++ [g_recv; g_recv; g_recv].
Theorem C88_prints_while_connected_refuted :
  exists u1 u2 u cl1 cl2 es1 es2,
    g_run g_before (usys_new bytes N N (g_bg 66) 0%N) = Some (u1, cl1, es1) /\
    g_step (UClient (g_sub 64)) u1 = Some (u2, Some (g_sub 64, [EvSub (ORes (Subscribed 0))])) /\
    g_run g_slow u2 = Some (u, cl2, es2) /\ all_sent (u_trace _ _ _ u) /\ no_transfer_errors g_slow /\
    still_receiving (cl1 ++ cl2) /\ kept_multi cl2 0 /\
    print_logs (recvs cl2 es2 0) = ([], false) /\
    texts_of (given_multi cl2 es2 0) = [formatted ++ [50%N]; hello_world].
Proof.
  destruct (g_run g_before (usys_new bytes N N (g_bg 66) 0%N)) as [[[u1 cl1] es1]|] eqn:R; [|vm_compute in R; discriminate].
  vm_compute in R. injection R as <- <- <-.
  do 7 eexists. split; [reflexivity|]. split; [vm_compute; reflexivity|]. split; [vm_compute; reflexivity|].
  split. { intros w h p r Hi. cbn in Hi. repeat (destruct Hi as [Hi|Hi]; [try discriminate Hi; injection Hi as _ _ _ <-; reflexivity|]). destruct Hi. }
  split. { intros e. split; intros H; not_there H. }
  split. { split; intros H; not_there H. }
  split. { intros H; not_there H. }
  split; vm_compute; reflexivity.
Qed.
Print Assumptions C88_prints_while_connected_refuted.
