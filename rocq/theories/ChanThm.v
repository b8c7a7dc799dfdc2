(** Property theorems for the channel transport: C53 and the channel parts of
    C46, C47. *)
From Coq Require Import NArith List Bool Arith Lia.
From Verif Require Import KeyModel HeaderModel KeySpec HeaderSpec KeyProof HeaderProof PostcardModel PostcardProof
  DispatchModel DispatchProof LogModel LogThm ChanModel.
Import ListNotations.
Local Open Scope N_scope.

(** ** Specification *)

(** The messages whose send succeeded, in order. *)
Definition sent (outs : list ChanOut) : list (list N) :=
  flat_map (fun o => match o with OutSend m SentOk => [m] | _ => [] end) outs.
(** The receives that took a message: the buffer limit and what was reported. *)
Definition taken (outs : list ChanOut) : list (option nat * ChanRecv) :=
  flat_map (fun o => match o with
                     | OutRecv l (CGot m) => [(l, CGot m)]
                     | OutRecv l CTooLarge => [(l, CTooLarge)]
                     | _ => [] end) outs.
(** How a message must be reported under a buffer limit. *)
Definition reported (l : option nat) (m : list N) : ChanRecv :=
  match l with
  | None => CGot m
  | Some n => if (length m <=? n)%nat then CGot m else CTooLarge
  end.
(** [rs] reports the messages [ms], one for one, in order. *)
Definition reports (rs : list (option nat * ChanRecv)) (ms : list (list N)) : Prop :=
  Forall2 (fun r m => snd r = reported (fst r) m) rs ms.

Lemma sent_app a b : sent (a ++ b) = sent a ++ sent b.
Proof. apply flat_map_app. Qed.
Lemma taken_app a b : taken (a ++ b) = taken a ++ taken b.
Proof. apply flat_map_app. Qed.

Lemma f2_length A B (P : A -> B -> Prop) l l' : Forall2 P l l' -> length l = length l'.
Proof. induction 1; cbn; congruence. Qed.

Lemma step_inv o c c' e : chan_step o c = (c', e) ->
  exists done, ch_queue c ++ sent e = done ++ ch_queue c' /\ reports (taken e) done.
Proof.
  intros H.
  assert (Same : forall c'' e'', c' = c'' -> e = e'' -> ch_queue c'' = ch_queue c -> sent e'' = [] -> taken e'' = [] ->
    exists done, ch_queue c ++ sent e = done ++ ch_queue c' /\ reports (taken e) done).
  { intros c'' e'' -> -> Q S T. exists []. rewrite S, T, Q, app_nil_r. split; [reflexivity|constructor]. }
  destruct o; cbn [chan_step] in H.
  - unfold chan_send in H.
    destruct (ch_stop c && prefer_stop)%bool; [injection H as <- <-; eapply Same; reflexivity|].
    destruct (negb (ch_rx c)); [injection H as <- <-; eapply Same; reflexivity|].
    destruct (length (ch_queue c) <? ch_cap c)%nat.
    + injection H as <- <-. exists []. cbn. split; [reflexivity|constructor].
    + destruct (ch_stop c); injection H as <- <-; eapply Same; reflexivity.
  - unfold chan_receive in H.
    destruct (ch_stop c && prefer_stop)%bool; [injection H as <- <-; eapply Same; reflexivity|].
    destruct (ch_queue c) as [|m q] eqn:Q.
    + destruct (negb (ch_tx c)); [injection H as <- <-; eapply Same; eauto|].
      destruct (ch_stop c); injection H as <- <-; eapply Same; eauto.
    + exists [m]. destruct (length m <=? buflen)%nat eqn:L; injection H as <- <-; cbn; rewrite app_nil_r;
        (split; [reflexivity|]); (apply Forall2_cons; [|apply Forall2_nil]); cbn; now rewrite L.
  - unfold host_receive in H. destruct (ch_queue c) as [|m q] eqn:Q.
    + destruct (negb (ch_tx c)); injection H as <- <-; eapply Same; eauto.
    + exists [m]. injection H as <- <-. cbn. rewrite app_nil_r. split; [reflexivity|].
      apply Forall2_cons; [reflexivity|apply Forall2_nil].
  - injection H as <- <-; eapply Same; reflexivity.
  - injection H as <- <-; eapply Same; reflexivity.
  - injection H as <- <-; eapply Same; reflexivity.
Qed.

Lemma run_inv ops : forall c c' e, chan_run ops c = (c', e) ->
  exists done, ch_queue c ++ sent e = done ++ ch_queue c' /\ reports (taken e) done.
Proof.
  induction ops as [|o ops IH]; intros c c' e H; cbn [chan_run] in H.
  - injection H as <- <-. exists []. cbn. rewrite app_nil_r. split; [reflexivity|constructor].
  - destruct (chan_step o c) as [c1 e1] eqn:E1. destruct (chan_run ops c1) as [c2 e2] eqn:E2.
    injection H as <- <-. destruct (step_inv _ _ _ _ E1) as (d1 & Q1 & R1). destruct (IH _ _ _ E2) as (d2 & Q2 & R2).
    exists (d1 ++ d2). rewrite sent_app, taken_app, app_assoc, Q1, <- app_assoc, Q2, app_assoc. split; auto.
    apply Forall2_app; auto.
Qed.

(** ** C53 *)

(** In every history of sends, receives, drops and stops: the receives that took
    something report, one for one and in order, the messages first sent; the rest
    of what was sent is still queued.  Each is reported whole if it fits the
    receive buffer, as too large (and consumed) otherwise. *)
Theorem C53_lossless_in_order :
  forall cap ops c outs,
    chan_run ops (chan_new cap) = (c, outs) ->
    exists delivered queued,
      sent outs = delivered ++ queued /\ ch_queue c = queued /\ reports (taken outs) delivered.
Proof.
  intros cap ops c outs H. destruct (run_inv _ _ _ _ H) as (d & Q & R). cbn in Q. eauto.
Qed.
Print Assumptions C53_lossless_in_order.

Lemma bounded :
  forall cap ops c outs, chan_run ops (chan_new cap) = (c, outs) -> ch_cap c = cap /\ (length (ch_queue c) <= cap)%nat.
Proof.
  intros cap ops. assert (G : forall c0 c outs, (length (ch_queue c0) <= ch_cap c0)%nat -> chan_run ops c0 = (c, outs) ->
    ch_cap c = ch_cap c0 /\ (length (ch_queue c) <= ch_cap c)%nat).
  { induction ops as [|o ops IH]; intros c0 c outs H0 H; cbn [chan_run] in H.
    - injection H as <- <-; auto.
    - destruct (chan_step o c0) as [c1 e1] eqn:E1. destruct (chan_run ops c1) as [c2 e2] eqn:E2. injection H as <- <-.
      assert (I1 : ch_cap c1 = ch_cap c0 /\ (length (ch_queue c1) <= ch_cap c1)%nat).
      { destruct o; cbn [chan_step] in E1.
        - unfold chan_send in E1. destruct (ch_stop c0 && prefer_stop)%bool; [injection E1 as <- <-; auto|].
          destruct (negb (ch_rx c0)); [injection E1 as <- <-; auto|].
          destruct (Nat.ltb_spec (length (ch_queue c0)) (ch_cap c0)).
          + injection E1 as <- <-. cbn. rewrite app_length. cbn. lia.
          + destruct (ch_stop c0); injection E1 as <- <-; auto.
        - unfold chan_receive in E1. destruct (ch_stop c0 && prefer_stop)%bool; [injection E1 as <- <-; auto|].
          destruct (ch_queue c0) as [|m q] eqn:Q.
          + destruct (negb (ch_tx c0)); [|destruct (ch_stop c0)]; injection E1 as <- <-; rewrite Q; auto.
          + destruct (length m <=? buflen)%nat; injection E1 as <- <-; cbn in *; lia.
        - unfold host_receive in E1. destruct (ch_queue c0) as [|m q] eqn:Q.
          + destruct (negb (ch_tx c0)); injection E1 as <- <-; rewrite Q; auto.
          + injection E1 as <- <-; cbn in *; lia.
        - injection E1 as <- <-; auto.
        - injection E1 as <- <-; auto.
        - injection E1 as <- <-; cbn; auto. }
      destruct I1 as [C1 L1]. destruct (IH _ _ _ L1 E2) as [C2 L2]. rewrite C2 in *. split; lia. }
  intros c outs H. destruct (G (chan_new cap) c outs) as [A B]; auto; cbn; [lia|]. rewrite A in B. auto.
Qed.

(** The queue never exceeds its capacity. *)
Theorem C53_bounded :
  forall cap ops c outs, chan_run ops (chan_new cap) = (c, outs) -> (length (ch_queue c) <= cap)%nat.
Proof. intros cap ops c outs H. apply (bounded _ _ _ _ H). Qed.
Print Assumptions C53_bounded.

(** The flags say what happened to the link. *)
Lemma flags ops : forall c0 c outs, chan_run ops c0 = (c, outs) ->
  (ch_stop c = true <-> ch_stop c0 = true \/ In OpStop ops) /\
  (ch_tx c = false <-> ch_tx c0 = false \/ In OpDropTx ops) /\
  (ch_rx c = false <-> ch_rx c0 = false \/ In OpDropRx ops).
Proof.
  induction ops as [|o ops IH]; intros c0 c outs H; cbn [chan_run] in H.
  - injection H as <- <-. cbn. intuition.
  - destruct (chan_step o c0) as [c1 e1] eqn:E1. destruct (chan_run ops c1) as [c2 e2] eqn:E2. injection H as <- <-.
    destruct (IH _ _ _ E2) as (A & B & C). rewrite A, B, C. clear A B C IH E2.
    assert (Same : o <> OpStop -> o <> OpDropTx -> o <> OpDropRx -> ch_stop c1 = ch_stop c0 /\ ch_tx c1 = ch_tx c0 /\ ch_rx c1 = ch_rx c0).
    { intros N1 N2 N3. destruct c0 as [cap q tx rx st]; destruct o; try congruence; cbn [chan_step] in E1; unfold chan_send, chan_receive, host_receive in E1;
        repeat (match type of E1 with context [match ?x with _ => _ end] => lazymatch x with context [match _ with _ => _ end] => fail | _ => destruct x; cbn [ch_cap ch_queue ch_tx ch_rx ch_stop] in E1; cbv beta iota in E1 end end); injection E1 as <- <-; cbn; auto. }
    assert (Nin : forall x, In x (o :: ops) <-> o = x \/ In x ops) by (intros; reflexivity). rewrite !Nin.
    destruct o; try (destruct Same as (-> & -> & ->); try discriminate; intuition discriminate);
      cbn [chan_step] in E1; injection E1 as <- <-; cbn; intuition discriminate.
Qed.

(** A receive reports the link closed only when it was stopped, or when the peer
    is gone and everything it sent has been taken; and then it does report it. *)
Theorem C53_closed :
  forall cap ops c outs,
    chan_run ops (chan_new cap) = (c, outs) ->
    (forall prefer_stop buflen,
       snd (chan_receive prefer_stop buflen c) = CClosed ->
       In OpStop ops \/ (In OpDropTx ops /\ length (taken outs) = length (sent outs))) /\
    (snd (host_receive c) = CClosed <-> In OpDropTx ops /\ length (taken outs) = length (sent outs)) /\
    (In OpStop ops \/ In OpDropTx ops -> length (taken outs) = length (sent outs) ->
     forall prefer_stop buflen, snd (chan_receive prefer_stop buflen c) = CClosed).
Proof.
  intros cap ops c outs H. destruct (run_inv _ _ _ _ H) as (d & Q & R). cbn in Q.
  destruct (flags _ _ _ _ H) as (F1 & F2 & _). cbn [chan_new ch_stop ch_tx] in F1, F2.
  assert (G1 : In OpStop ops <-> ch_stop c = true) by (rewrite F1; intuition discriminate).
  assert (G2 : In OpDropTx ops <-> ch_tx c = false) by (rewrite F2; intuition discriminate).
  clear F1 F2. setoid_rewrite G1. setoid_rewrite G2.
  assert (E : length (taken outs) = length (sent outs) <-> ch_queue c = []).
  { rewrite Q, app_length, (f2_length _ _ _ _ _ R). destruct (ch_queue c); cbn; split; intros; try lia; try discriminate; auto. }
  setoid_rewrite E. split; [|split].
  - intros p n X. unfold chan_receive in X. destruct (ch_stop c); [auto|]. cbn [andb] in X. right.
    destruct (ch_queue c) as [|m q].
    + destruct (ch_tx c); cbn in X; [discriminate|auto].
    + destruct (length m <=? n)%nat; discriminate.
  - unfold host_receive. destruct (ch_queue c) as [|m q]; cbn.
    + destruct (ch_tx c); cbn; intuition discriminate.
    + split; intros X; [discriminate|]. destruct X as [_ X]. discriminate.
  - intros T Q0 p n. unfold chan_receive. rewrite Q0. destruct (ch_stop c && p)%bool; [reflexivity|].
    destruct T as [-> | ->]; cbn; [destruct (negb (ch_tx c))|]; reflexivity.
Qed.
Print Assumptions C53_closed.

(** A sender that is told "sent" is told the truth, and a send is refused only
    if the receiver is gone or the link was stopped; it waits only while the queue is full. *)
Theorem C53_send :
  forall cap ops c outs, chan_run ops (chan_new cap) = (c, outs) ->
  forall prefer_stop msg,
    match snd (chan_send prefer_stop msg c) with
    | SentOk => ch_queue (fst (chan_send prefer_stop msg c)) = ch_queue c ++ [msg] /\ ~ In OpDropRx ops
    | SendClosed => fst (chan_send prefer_stop msg c) = c /\ (In OpDropRx ops \/ In OpStop ops)
    | SendWaiting => fst (chan_send prefer_stop msg c) = c /\ length (ch_queue c) = cap /\ ~ In OpDropRx ops /\ ~ In OpStop ops
    end.
Proof.
  intros cap ops c outs H p m. destruct (flags _ _ _ _ H) as (F1 & _ & F3). cbn [chan_new ch_stop ch_rx] in F1, F3.
  assert (G1 : In OpStop ops <-> ch_stop c = true) by (rewrite F1; intuition discriminate).
  assert (G3 : In OpDropRx ops <-> ch_rx c = false) by (rewrite F3; intuition discriminate).
  clear F1 F3. destruct (bounded _ _ _ _ H) as [Ec Lc].
  unfold chan_send. destruct (ch_stop c) eqn:Es; destruct p; destruct (ch_rx c) eqn:X; cbn [andb negb fst snd]; rewrite ?G1, ?G3; auto;
    destruct (Nat.ltb_spec (length (ch_queue c)) (ch_cap c)); cbn; rewrite ?G1, ?G3; auto; repeat split; auto; try discriminate; lia.
Qed.
Print Assumptions C53_send.

Example C53_nontrivial :
  let '(c, outs) := chan_run [OpSend true [1; 2; 3]; OpReceive true 4; OpSend false [4; 5; 6; 7; 8]; OpSend true [9];
                              OpReceive true 4; OpReceive false 4; OpDropTx; OpReceive true 4] (chan_new 2) in
  sent outs = [[1; 2; 3]; [4; 5; 6; 7; 8]; [9]] /\
  taken outs = [(Some 4%nat, CGot [1; 2; 3]); (Some 4%nat, CTooLarge); (Some 4%nat, CGot [9])] /\
  last outs (OutRecv None CWaiting) = OutRecv (Some 4%nat) CClosed.
Proof. vm_compute. repeat split; reflexivity. Qed.

(** ** C46, C47 on this transport *)

Lemma chan_logs_nth lkey kk ss : forall ctr i m, nth_error (chan_logs lkey kk ctr ss) i = Some m -> ctr < 4294967296 ->
  exists s, nth_error ss i = Some s /\
    m = chan_msg (MkHeader (const_key kk lkey) (Seq4 ((ctr + N.of_nat i) mod 4294967296))) (str_enc 8 s).
Proof.
  induction ss as [|s ss IH]; intros ctr i m H C; [destruct i; discriminate|]. cbn [chan_logs chan_log] in H.
  destruct i as [|i]; cbn [nth_error] in H.
  - injection H as <-. exists s. split; auto. unfold chan_log. cbn [fst]. rewrite N.add_0_r, N.mod_small by auto. reflexivity.
  - apply IH in H; [|apply N.mod_lt; discriminate]. destruct H as (s' & E & ->). exists s'. split; auto.
    rewrite N.add_mod_idemp_l by discriminate. replace (ctr + 1 + N.of_nat i) with (ctr + N.of_nat (S i)) by lia. reflexivity.
Qed.

(** The [i]-th log over channels decodes to the logging key, sequence number
    [start + i] modulo 2^32, and the very text. *)
Theorem C47_channel :
  forall lkey kk start ss i m,
    Forall byte_ok (k8_bytes lkey) -> start < 4294967296 ->
    nth_error (chan_logs lkey kk start ss) i = Some m ->
    exists s body,
      nth_error ss i = Some s /\
      (N.of_nat (length s) < 18446744073709551616 ->
       take_from_slice m =
         Done (Some (MkHeader (shrink_to (VKey8 lkey) kk) (Seq4 ((start + N.of_nat i) mod 4294967296)), body)) /\
       take_str body = Some (s, [])).
Proof.
  intros lkey kk start ss i m Hk Hs H. destruct (chan_logs_nth _ _ _ _ _ _ H Hs) as (s & E & ->).
  exists s, (str_enc 8 s). split; auto. intros L.
  assert (HO : header_ok (MkHeader (const_key kk lkey) (Seq4 ((start + N.of_nat i) mod 4294967296)))).
  { split; [|cbn; apply N.mod_lt; discriminate]. cbn [hdr_key]. rewrite const_key_spec. apply shrink_key_ok. exact Hk. }
  split.
  - unfold chan_msg. rewrite take_write by exact HO. rewrite const_key_spec. reflexivity.
  - unfold take_str, str_enc, varint_usize. change (varint_max 8) with 10%nat. change (varint_enc 10) with u64_varint.
    rewrite take_u64_enc by auto. rewrite Nnat.Nat2N.id, Nat.leb_refl, firstn_all, skipn_all. reflexivity.
Qed.
Print Assumptions C47_channel.

Example C47_channel_nontrivial :
  chan_logs (K8 1 2 3 4 5 6 7 8) KK1 4294967295 [[65]; [66; 67]] =
    [[32; 8; 255; 255; 255; 255; 1; 65]; [32; 8; 0; 0; 0; 0; 2; 66; 67]].
Proof. vm_compute. reflexivity. Qed.
