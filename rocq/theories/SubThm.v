(** Property theorems for subscriptions: C37-C41, and the subscription part of
    C36. *)
From Coq Require Import NArith List Bool Arith Lia.
From Verif Require Import KeyModel HeaderModel KeySpec KeyProof SubModel SubSpec SubProof.
Import ListNotations.

(** [of_topic] in terms of bytes: the frame's key is the topic's key compacted to
    the frame's key length. *)
Lemma of_topic_iff k f : of_topic k f = true <-> varkey_bytes (hdr_key (f_hdr f)) = compact (vlen (hdr_key (f_hdr f))) (k8_bytes k).
Proof.
  unfold of_topic. rewrite varkey_eqb_spec. unfold agree_at.
  assert (V : vlen (VKey8 k) = 8) by (destruct k; reflexivity). rewrite V.
  destruct (hdr_key (f_hdr f)) as [x|x|x|x]; rewrite vlen_kind; cbn [varkey_kind klen Nat.min varkey_bytes];
    rewrite ?compact_same_1, ?compact_same_2, ?compact_same_4, ?compact_same_8; split; congruence.
Qed.

(** ** C37 *)

(** Two exclusive subscriptions handed out for the same topic are never both
    connected to it. *)
Theorem C37_at_most_one :
  forall no_wait ops s outs k id id',
    sub_run no_wait ops subs_new = Some (s, outs) ->
    obtained (combine ops outs) k id -> obtained (combine ops outs) k id' ->
    connected id (exclusive_list s) = true -> connected id' (exclusive_list s) = true ->
    id = id'.
Proof.
  intros nw ops s outs k id id' R O O' C C'. pose proof (reach_inv _ _ _ _ R) as I.
  apply connected_iff in C, C'. destruct C as [a A], C' as [b B].
  rewrite (i_one _ _ I k a id O (i_in _ _ I _ _ A)) in *.
  pose proof (i_one _ _ I _ _ _ O' (i_in _ _ I _ _ B)) as E. subst b.
  exact (nodup_fst_in _ _ _ _ _ _ (i_keys _ _ I) A B).
Qed.
Print Assumptions C37_at_most_one.

(** [subscribe_exclusive] is refused exactly when a subscription to the topic that
    was handed out earlier is still held and has not ended; otherwise (unless the
    client stopped) it hands out a new one, which is then connected. *)
Theorem C37_exclusive_iff :
  forall no_wait ops s outs k depth,
    sub_run no_wait ops subs_new = Some (s, outs) -> s_blocked s = None -> s_stopped s = false -> 0 < depth ->
    exists s' r,
      sub_step no_wait (SubscribeExclusive k depth) s = Some (s', ORes r) /\
      (r = AlreadySubscribed <-> exists id, obtained (combine ops outs) k id /\ live s id) /\
      (r <> AlreadySubscribed ->
       exists id, r = Subscribed id /\ live s' id /\ forall k', ~ obtained (combine ops outs) k' id) /\
      (r = AlreadySubscribed -> s' = s).
Proof.
  intros nw ops s outs k d R B S D. pose proof (reach_inv _ _ _ _ R) as I.
  cbn [sub_step]. unfold blocked. rewrite B. destruct (subscribe_mpsc false k d s) as [s' r] eqn:E.
  exists s', r. split; auto. apply sub_mpsc_cases in E. destruct E as [(-> & E)|(_ & _ & -> & l & -> & E)].
  - destruct E as [(E & _)|[(_ & E & _)|(_ & _ & _ & -> & old & O & A)]]; [lia|congruence|].
    split; [|split; auto; congruence]. split; auto. intros _. exists old. split; [apply (i_in _ _ I); auto|].
    split; auto. apply connected_iff. eauto.
  - split; [|split; [|congruence]].
    + split; [discriminate|]. intros (id & O & A & C). exfalso. apply connected_iff in C. destruct C as [a C].
      assert (a = k) by (eapply (i_one _ _ I); eauto; apply (i_in _ _ I); auto). subst a.
      destruct E as [(old & O' & [X|X] & _)|(N & _)]; [discriminate| |].
      * rewrite (nodup_fst_in _ _ _ _ _ _ (i_keys _ _ I) O' C) in X. congruence.
      * apply N. now apply (in_map fst) in C.
    + intros _. eexists. split; [reflexivity|]. split; [split|].
      * unfold x_alive. cbn [with_exclusive s_chans]. rewrite nth_error_app2, Nat.sub_diag by lia. reflexivity.
      * apply connected_iff. exists k. cbn [with_exclusive exclusive_list].
        destruct E as [(old & O' & _ & ->)|(N & ->)]; [apply replace_has; now apply (in_map fst) in O'|apply in_app_iff; right; now left].
      * intros k' O. apply (i_lt _ _ I) in O. lia.
Qed.
Print Assumptions C37_exclusive_iff.

(** The deprecated [subscribe] always succeeds and ends every earlier exclusive
    subscription to the topic. *)
Theorem C37_legacy_replaces :
  forall no_wait ops s outs k depth,
    sub_run no_wait ops subs_new = Some (s, outs) -> s_blocked s = None -> s_stopped s = false -> 0 < depth ->
    exists s' id,
      sub_step no_wait (SubscribeLegacy k depth) s = Some (s', ORes (Subscribed id)) /\
      live s' id /\
      forall id', obtained (combine ops outs) k id' -> connected id' (exclusive_list s') = false.
Proof.
  intros nw ops s outs k d R B S D. pose proof (reach_inv _ _ _ _ R) as I.
  destruct (subscribe_mpsc true k d s) as [s' r] eqn:E.
  assert (St : sub_step nw (SubscribeLegacy k d) s = Some (s', ORes r)) by (cbn [sub_step]; unfold blocked; rewrite B, E; reflexivity).
  pose proof (inv_step nw _ _ _ _ _ I St) as I'.
  apply sub_mpsc_cases in E. destruct E as [(-> & E)|(_ & _ & -> & l & -> & E)].
  { destruct E as [(E & _)|[(_ & E & _)|(_ & _ & E & _)]]; [lia|congruence|congruence]. }
  eexists _, _. split; [exact St|].
  assert (In (k, length (s_chans s)) l).
  { destruct E as [(old & O' & _ & ->)|(N & ->)]; [apply replace_has; now apply (in_map fst) in O'|apply in_app_iff; right; now left]. }
  split; [split|].
  - unfold x_alive. cbn [with_exclusive s_chans]. rewrite nth_error_app2, Nat.sub_diag by lia. reflexivity.
  - apply connected_iff. eauto.
  - intros id' O. destruct (connected id' _) eqn:C; auto. exfalso. apply connected_iff in C. destruct C as [a C].
    pose proof (i_in _ _ I' _ _ C) as O2. assert (O3 : obtained (combine ops outs ++ [(SubscribeLegacy k d, ORes (Subscribed (length (s_chans s))))]) k id') by (apply obtained_app; auto).
    pose proof (i_one _ _ I' _ _ _ O2 O3). subst a.
    pose proof (nodup_fst_in _ _ _ _ _ _ (i_keys _ _ I') C H). subst id'. apply (i_lt _ _ I) in O. lia.
Qed.
Print Assumptions C37_legacy_replaces.

(** ** An ended subscription *)

Definition queue_of (s : Subs) (id : nat) : list RpcFrame :=
  match nth_error (s_chans s) id with Some ch => m_queue ch | None => [] end.

(** A step leaves a disconnected channel disconnected and its queue alone. *)
Lemma disconnected_step nw tr s o s' out id : Inv tr s -> id < length (s_chans s) -> connected id (exclusive_list s) = false ->
  sub_step nw o s = Some (s', out) ->
  id < length (s_chans s') /\ connected id (exclusive_list s') = false /\
  (o <> ReceiveX id -> o <> DropX id -> queue_of s' id = queue_of s id) /\
  (o = ReceiveX id -> exists r, out = OX r /\ x_alive id s' = true /\
     match queue_of s id with [] => r = XEnded /\ queue_of s' id = [] | f :: q => r = XGot f /\ queue_of s' id = q end).
Proof.
  intros I L C H.
  assert (NC : forall k, ~ In (k, id) (exclusive_list s)).
  { intros k X. assert (connected id (exclusive_list s) = true) by (apply connected_iff; eauto). congruence. }
  assert (Fil : forall p, connected id (filter p (exclusive_list s)) = false).
  { intros p. destruct (connected id (filter p (exclusive_list s))) eqn:E; auto. apply connected_iff in E. destruct E as [k E].
    apply filter_In in E. destruct (NC k). tauto. }
  assert (Ret : forall b key, connected id (retain b key (exclusive_list s)) = false).
  { intros b key. destruct (retain_filter b key (exclusive_list s)) as [p ->]. auto. }
  assert (Sub : forall legacy k d s1 r, subscribe_mpsc legacy k d s = (s1, r) ->
     id < length (s_chans s1) /\ connected id (exclusive_list s1) = false /\ queue_of s1 id = queue_of s id).
  { intros legacy k d s1 r E. apply sub_mpsc_cases in E. destruct E as [(-> & _)|(_ & _ & -> & l & -> & E)]; auto.
    cbn [with_exclusive s_chans exclusive_list]. rewrite app_length. split; [lia|]. split.
    - destruct (connected id l) eqn:X; auto. apply connected_iff in X. destruct X as [a X].
      destruct E as [(old & _ & _ & ->)|(_ & ->)].
      + apply replace_in in X; [|apply (i_keys _ _ I)]. destruct X as [(_ & X)|(_ & X)]; [lia|]. destruct (NC _ X).
      + apply in_app_iff in X. destruct X as [X|[X|[]]]; [destruct (NC _ X)|]. injection X as _ X. lia.
    - unfold queue_of. cbn [with_exclusive s_chans]. rewrite nth_error_app1 by lia. reflexivity. }
  assert (Try : forall c f chans r, mpsc_try_send c f (s_chans s) = (chans, r) -> (exists k, In (k, c) (exclusive_list s)) ->
     id < length chans /\ nth_error chans id = nth_error (s_chans s) id).
  { intros c f chans r T (k & K). destruct (try_send_spec _ _ _ _ _ T) as (LC & N & M). split; [lia|].
    assert (c <> id) by (intros ->; destruct (NC _ K)).
    destruct r; [|now rewrite N by discriminate|now rewrite N by discriminate].
    destruct M as (ch & _ & _ & _ & ->). now rewrite set_nth_other by auto. }
  unfold sub_step in H. destruct o.
  - destruct (blocked s); [discriminate|]. destruct (subscribe_mpsc false k depth s) as [s1 r] eqn:E. injection H as <- <-.
    destruct (Sub _ _ _ _ _ E) as (A & B & D). repeat split; auto; discriminate.
  - destruct (blocked s); [discriminate|]. destruct (subscribe_mpsc true k depth s) as [s1 r] eqn:E. injection H as <- <-.
    destruct (Sub _ _ _ _ _ E) as (A & B & D). repeat split; auto; discriminate.
  - destruct (blocked s); [discriminate|]. destruct (subscribe_multi k depth s) as [s1 r] eqn:E. injection H as <- <-.
    unfold subscribe_multi in E. destruct (s_stopped s); [injection E as <- <-; repeat split; auto; discriminate|].
    destruct (find _ _) as [[k' c]|]; [injection E as <- <-; repeat split; auto; discriminate|].
    destruct depth; injection E as <- <-; repeat split; auto; discriminate.
  - destruct (blocked s || s_stopped s)%bool; [discriminate|]. destruct (deliver nw f s) as [s1 d] eqn:E. injection H as <- <-.
    rewrite deliver_eq in E. cbv zeta in E. destruct (deliver_mul f s) as [[bs h1] rm].
    destruct (find (key_matches (hdr_key (f_hdr f))) (exclusive_list s)) as [[k c]|] eqn:F.
    + apply find_some in F. destruct F as [F _]. destruct (mpsc_try_send c f (s_chans s)) as [chans r] eqn:T.
      destruct (Try _ _ _ _ T ltac:(eauto)) as [A B].
      destruct r; [|destruct nw|]; injection E as <- <-; repeat split; auto; try discriminate;
        (intros _ _; unfold queue_of; cbn [finish s_chans]; now rewrite B) || apply Ret.
    + injection E as <- <-. repeat split; auto; try discriminate. all: apply Ret.
  - destruct (unblock w s) as [s1|] eqn:E; [|discriminate]. injection H as <- <-. unfold unblock in E.
    destruct (s_blocked s) as [[[c f] rm]|] eqn:Bk; [|discriminate]. destruct (i_bl _ _ I _ _ _ Bk) as [k F].
    apply find_some in F. destruct F as [F _]. destruct (mpsc_try_send c f (s_chans s)) as [chans r] eqn:T.
    destruct (Try _ _ _ _ T ltac:(eauto)) as [A B].
    destruct w, r; try discriminate; injection E as <-; repeat split; auto; try discriminate; try apply Ret;
      (intros _ _; unfold queue_of; cbn [finish with_exclusive s_chans]; now rewrite B).
  - destruct (x_alive id0 s) eqn:XA; [|discriminate]. destruct (recv_exclusive id0 s) as [s1 r] eqn:E. injection H as <- <-.
    unfold recv_exclusive in E. destruct (nth_error (s_chans s) id0) as [ch|] eqn:N.
    2: { unfold x_alive in XA. rewrite N in XA. discriminate. }
    destruct (Nat.eq_dec id0 id) as [->|NE].
    + split; [|split; [|split]].
      * destruct (m_queue ch); [|injection E as <- <-; cbn; now rewrite set_nth_length]. destruct (connected _ _); injection E as <- <-; auto.
      * destruct (m_queue ch); [|injection E as <- <-; auto]. rewrite C in E; injection E as <- <-; auto.
      * congruence.
      * intros _. exists r. split; auto. unfold queue_of. rewrite N. destruct (m_queue ch) as [|f q] eqn:Q.
        -- rewrite C in E. injection E as <- <-. rewrite N, Q. auto.
        -- injection E as <- <-. unfold x_alive in *. cbn [with_exclusive s_chans]. rewrite N in XA.
           rewrite (set_nth_some _ _ _ _ _ N). auto.
    + assert (G : id < length (s_chans s1) /\ connected id (exclusive_list s1) = false /\ queue_of s1 id = queue_of s id).
      { destruct (m_queue ch) as [|f q]; [destruct (connected id0 _); injection E as <- <-; auto|]. injection E as <- <-.
        unfold queue_of. cbn [with_exclusive s_chans exclusive_list]. rewrite set_nth_length, set_nth_other by auto. auto. }
      destruct G as (A & B & D). repeat split; auto. congruence.
  - destruct (m_alive id0 s); [|discriminate]. destruct (recv_multi id0 s) as [s1 r] eqn:E. injection H as <- <-.
    unfold recv_multi in E. destruct (nth_error (s_mrxs s) id0) as [rx|]; [|injection E as <- <-; repeat split; auto; discriminate].
    destruct (nth_error (s_bcasts s) (r_chan rx)); [|injection E as <- <-; repeat split; auto; discriminate].
    destruct (_ <? _); [injection E as <- <-; repeat split; auto; discriminate|].
    destruct (nth_error _ (r_next rx)); [injection E as <- <-; repeat split; auto; discriminate|].
    destruct (connected (r_chan rx) (broadcast_list s)); injection E as <- <-; repeat split; auto; discriminate.
  - destruct (x_alive id0 s); [|discriminate]. injection H as <- <-. unfold drop_exclusive.
    destruct (nth_error (s_chans s) id0) as [ch|] eqn:N; [|repeat split; auto; discriminate].
    cbn [with_exclusive s_chans exclusive_list]. rewrite set_nth_length. repeat split; auto; try discriminate.
    intros _ X. unfold queue_of. cbn [with_exclusive s_chans]. rewrite set_nth_other by congruence. reflexivity.
  - destruct (m_alive id0 s); [|discriminate]. injection H as <- <-. unfold drop_multi.
    destruct (nth_error (s_mrxs s) id0); repeat split; auto; discriminate.
  - injection H as <- <-. repeat split; auto; discriminate.
Qed.

Lemma ended_run nw id ops : forall tr s s' outs, Inv tr s -> id < length (s_chans s) -> connected id (exclusive_list s) = false ->
  ~ In (DropX id) ops -> sub_run nw ops s = Some (s', outs) ->
  exists q1 q2 m, queue_of s id = q1 ++ q2 /\ x_results id ops outs = map XGot q1 ++ repeat XEnded m /\
    (m <> 0 -> q2 = []) /\ queue_of s' id = q2.
Proof.
  induction ops as [|o ops IH]; intros tr s s' outs I L C ND H; cbn [sub_run] in H.
  - injection H as <- <-. exists [], (queue_of s id), 0. cbn. repeat split; auto. congruence.
  - destruct (sub_step nw o s) as [[s1 e]|] eqn:E1; [|discriminate].
    destruct (sub_run nw ops s1) as [[s2 es]|] eqn:E2; [|discriminate]. injection H as <- <-.
    destruct (disconnected_step _ _ _ _ _ _ _ I L C E1) as (L1 & C1 & Qo & Qr).
    destruct (IH _ _ _ _ (inv_step _ _ _ _ _ _ I E1) L1 C1 ltac:(intros X; apply ND; now right) E2) as (q1 & q2 & m & Q & R & M & Q2).
    assert (DX : o <> DropX id) by (intros ->; apply ND; now left).
    assert (Dec : o = ReceiveX id \/ o <> ReceiveX id).
    { destruct o; try (right; discriminate). destruct (Nat.eq_dec id0 id) as [->|]; [now left|right; congruence]. }
    destruct Dec as [->|NR].
    + destruct (Qr eq_refl) as (r & -> & _ & M1). cbn [x_results]. rewrite Nat.eqb_refl, R.
      destruct (queue_of s id) as [|f q].
      * destruct M1 as [-> Q1]. rewrite Q1 in Q. symmetry in Q. apply app_eq_nil in Q. destruct Q as [-> ->].
        exists [], [], (S m). cbn. auto.
      * destruct M1 as [-> Q1]. rewrite Q1 in Q. subst q. exists (f :: q1), q2, m. cbn. auto.
    + exists q1, q2, m. rewrite <- (Qo NR DX). split; [exact Q|]. split; [|auto].
      rewrite <- R. destruct o; cbn [x_results]; auto. destruct e; auto.
      destruct (Nat.eqb_spec id0 id); [congruence|auto].
Qed.

(** Once a subscription is disconnected (replaced, or the client stopped), its
    user is given exactly what had been queued, in order, and then the end. *)
Theorem C37_replaced_drains :
  forall no_wait ops s outs k id more s' outs',
    sub_run no_wait ops subs_new = Some (s, outs) -> obtained (combine ops outs) k id ->
    connected id (exclusive_list s) = false ->
    sub_run no_wait more s = Some (s', outs') -> ~ In (DropX id) more ->
    exists given left n,
      queue_of s id = given ++ left /\ x_results id more outs' = map XGot given ++ repeat XEnded n /\
      (n <> 0 -> left = []).
Proof.
  intros nw ops s outs k id more s' outs' R O C R' ND. pose proof (reach_inv _ _ _ _ R) as I.
  destruct (ended_run nw id more _ _ _ _ I (i_lt _ _ I _ _ O) C ND R') as (q1 & q2 & m & Q & X & M & _). eauto 8.
Qed.
Print Assumptions C37_replaced_drains.

(** C36, subscriptions: once the worker has stopped, every subscribe fails,
    exclusive subscriptions drain and end. *)
Theorem C36_subscribe_fails :
  forall no_wait ops s outs more s' outs' o r,
    sub_run no_wait ops subs_new = Some (s, outs) -> In StopWorker ops ->
    sub_run no_wait more s = Some (s', outs') -> In (o, ORes r) (combine more outs') ->
    r = IoClosed \/ r = SubPanic.
Proof.
  intros nw ops s outs more s' outs' o r R St R' X.
  assert (Keep : forall ops s s' outs, s_stopped s = true -> sub_run nw ops s = Some (s', outs) ->
            s_stopped s' = true /\ forall o r, In (o, ORes r) (combine ops outs) -> r = IoClosed \/ r = SubPanic).
  { clear. induction ops as [|o ops IH]; intros s s' outs St R; cbn [sub_run] in R.
    - injection R as <- <-. split; auto. cbn. tauto.
    - destruct (sub_step nw o s) as [[s1 e]|] eqn:E1; [|discriminate].
      destruct (sub_run nw ops s1) as [[s2 es]|] eqn:E2; [|discriminate]. injection R as <- <-.
      assert (G : s_stopped s1 = true /\ forall r, e = ORes r -> r = IoClosed \/ r = SubPanic).
      { unfold sub_step in E1. destruct o.
        - destruct (blocked s); [discriminate|]. unfold subscribe_mpsc in E1. destruct depth; [|rewrite St in E1]; injection E1 as <- <-; split; auto; intros r X; injection X as <-; auto.
        - destruct (blocked s); [discriminate|]. unfold subscribe_mpsc in E1. destruct depth; [|rewrite St in E1]; injection E1 as <- <-; split; auto; intros r X; injection X as <-; auto.
        - destruct (blocked s); [discriminate|]. unfold subscribe_multi in E1. rewrite St in E1. injection E1 as <- <-; split; auto; intros r X; injection X as <-; auto.
        - rewrite St, orb_true_r in E1. discriminate.
        - unfold unblock in E1. destruct (s_blocked s) as [[[c f] rm]|]; [|discriminate].
          destruct (mpsc_try_send c f (s_chans s)) as [ch []]; destruct w; try discriminate; injection E1 as <- <-; split; auto; discriminate.
        - destruct (x_alive id s); [|discriminate]. unfold recv_exclusive in E1. destruct (nth_error _ _) as [ch|]; [destruct (m_queue ch); [destruct (connected _ _)|]|]; injection E1 as <- <-; split; auto; discriminate.
        - destruct (m_alive id s); [|discriminate]. unfold recv_multi in E1. destruct (nth_error _ _) as [rx|]; [|injection E1 as <- <-; split; auto; discriminate].
          destruct (nth_error _ _); [|injection E1 as <- <-; split; auto; discriminate].
          destruct (_ <? _); [injection E1 as <- <-; split; auto; discriminate|].
          destruct (nth_error _ _); [injection E1 as <- <-; split; auto; discriminate|].
          destruct (connected _ _); injection E1 as <- <-; split; auto; discriminate.
        - destruct (x_alive id s); [|discriminate]. injection E1 as <- <-. unfold drop_exclusive. destruct (nth_error _ _); split; auto; discriminate.
        - destruct (m_alive id s); [|discriminate]. injection E1 as <- <-. unfold drop_multi. destruct (nth_error _ _); split; auto; discriminate.
        - injection E1 as <- <-. split; auto; discriminate. }
      destruct G as [S1 G]. destruct (IH _ _ _ S1 E2) as [S2 G2]. split; auto. intros o' r'. cbn [combine]. intros [X|X]; eauto.
      injection X as <- X. auto. }
  assert (S : s_stopped s = true).
  { apply in_split in St. destruct St as (a & b & ->). rewrite run_app in R.
    destruct (sub_run nw a subs_new) as [[s1 o1]|]; [|discriminate].
    destruct (sub_run nw (StopWorker :: b) s1) as [[s2 o2]|] eqn:E; [|discriminate]. injection R as <- _.
    cbn [sub_run sub_step] in E. destruct (sub_run nw b (stop_subs s1)) as [[s3 o3]|] eqn:E3; [|discriminate]. injection E as <- _.
    now apply (Keep _ _ _ _ (eq_refl : s_stopped (stop_subs s1) = true)) in E3. }
  destruct (Keep _ _ _ _ S R') as [_ G]. eauto.
Qed.
Print Assumptions C36_subscribe_fails.

Theorem C36_exclusive_drains :
  forall no_wait ops s outs k id more s' outs',
    sub_run no_wait (ops ++ [StopWorker]) subs_new = Some (s, outs) -> obtained (combine (ops ++ [StopWorker]) outs) k id ->
    sub_run no_wait more s = Some (s', outs') -> ~ In (DropX id) more ->
    exists given left n,
      queue_of s id = given ++ left /\ x_results id more outs' = map XGot given ++ repeat XEnded n /\
      (n <> 0 -> left = []).
Proof.
  intros nw ops s outs k id more s' outs' R O R' ND. eapply C37_replaced_drains; eauto.
  rewrite run_app in R. destruct (sub_run nw ops subs_new) as [[s1 o1]|]; [|discriminate]. cbn in R. injection R as <- _. reflexivity.
Qed.
Print Assumptions C36_exclusive_drains.
