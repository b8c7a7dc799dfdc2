(** Property theorems for subscriptions, continued: C36 (broadcast), C39 (accounting),
    C40, C41, C58, and the worked histories for C36-C41. *)
From Coq Require Import NArith List Bool Arith Lia.
From Verif Require Import KeyModel HeaderModel KeySpec KeyProof SubModel SubSpec SubProof UsbSpec SubThm SubThm2.
Import ListNotations.

(** ** C39: accounting *)
Lemma m_view_arrivals k id ops : m_arrivals (m_view k id ops) = arrivals k ops.
Proof.
  induction ops as [|o ops IH]; [reflexivity|]. unfold arrivals. cbn [flat_map m_view].
  destruct o; cbn [app]; auto.
  - destruct (of_topic k f); [|auto]. cbn. f_equal. exact IH.
  - destruct (id0 =? id); auto.
Qed.

Lemma m_view_app k id a b : m_view k id (a ++ b) = m_view k id a ++ m_view k id b.
Proof.
  induction a as [|o a IH]; [reflexivity|]. cbn [app m_view]. destruct o; auto.
  - destruct (of_topic k f); auto. cbn [app]. now f_equal.
  - destruct (id0 =? id); auto. cbn [app]. now f_equal.
Qed.

(** What a broadcast subscriber receives is, in order, messages of its topic that
    arrived since it subscribed; nothing is repeated or invented.  If it was never
    told of a loss, it received a gapless prefix of them.  When it asks and there
    is nothing left, received plus reported missing is exactly what arrived. *)
Theorem C39_accounting :
  forall no_wait ops s outs k depth id s1 more s2 outs2,
    sub_run no_wait ops subs_new = Some (s, outs) ->
    sub_step no_wait (SubscribeMulti k depth) s = Some (s1, ORes (Subscribed id)) ->
    sub_run no_wait more s1 = Some (s2, outs2) ->
    m_undisturbed id more ->
    no_confusion k (multi_keys (ops ++ [SubscribeMulti k depth] ++ more)) more ->
    let rs := m_results id more outs2 in
    subsequence (got_frames rs) (arrivals k more) /\
    length (got_frames rs) + missed rs <= length (arrivals k more) /\
    (missed rs = 0 -> exists rest, arrivals k more = got_frames rs ++ rest) /\
    (forall more' rs', more = more' ++ [ReceiveM id] -> rs = rs' ++ [MWaiting] ->
       length (got_frames rs) + missed rs = length (arrivals k more)) /\
    ~ In MClosed rs.
Proof.
  intros nw ops s outs k d id s1 more s2 outs2 R St R2 U NC rs. subst rs.
  destruct (C39_reader _ _ _ _ _ _ _ _ R St) as (cap & _ & E). rewrite (E _ _ _ R2 U NC).
  destruct (r_run_account cap (m_view k id more) [] 0 ltac:(cbn; lia)) as (p & B & A & S & F & W).
  cbn [app skipn] in *. rewrite m_view_arrivals in *. repeat split; auto; try lia.
  - intros M. specialize (F M). rewrite <- F. exists (skipn (p - 0) (arrivals k more)). now rewrite firstn_skipn.
  - intros more' rs' -> Er. specialize (W rs' Er).
    enough (p = length (arrivals k (more' ++ [ReceiveM id]))) by lia. apply W. intros e es' Ee.
    rewrite m_view_app in Ee. cbn [m_view] in Ee. rewrite Nat.eqb_refl in Ee. apply app_inj_tail in Ee. now destruct Ee.
  - assert (G : forall es st, ~ In MClosed (r_run cap st es)).
    { induction es as [|e es IH]; intros [a q] X; [destruct X|]. cbn [r_run] in X.
      destruct (r_step cap (a, q) e) as [st' o] eqn:Es. apply in_app_iff in X. destruct X as [X|X]; [|eapply IH; eauto].
      destruct e; cbn [r_step] in Es; [injection Es as <- <-; destruct X|].
      destruct (q + cap <? length a); [injection Es as <- <-; destruct X as [X|[]]; discriminate|].
      destruct (nth_error a q); injection Es as <- <-; destruct X as [X|[]]; discriminate. }
    apply G.
Qed.
Print Assumptions C39_accounting.

Lemma r_run_no_miss cap es : forall arr pos, pos <= length arr ->
  (forall a b, es = a ++ b ->
     length arr + length (m_arrivals a) <= pos + length (got_frames (r_run cap (arr, pos) a)) + cap) ->
  missed (r_run cap (arr, pos) es) = 0.
Proof.
  induction es as [|e es IH]; intros arr pos P H; [reflexivity|].
  destruct e as [f|]; cbn [r_run r_step app].
  - apply IH; [rewrite app_length; lia|]. intros a b ->. specialize (H (RArrive f :: a) b eq_refl).
    cbn [r_run r_step app m_arrivals flat_map length] in H. change (flat_map _ a) with (m_arrivals a) in H.
    rewrite app_length. cbn. lia.
  - pose proof (H [] _ eq_refl) as H0. cbn in H0.
    replace (pos + cap <? length arr) with false by (symmetry; apply Nat.ltb_ge; lia).
    assert (Hr : forall a b, es = a ++ b -> length arr + length (m_arrivals a) <=
              pos + length (got_frames (r_run cap (arr, pos) (RRecv :: a))) + cap).
    { intros a b ->. apply (H (RRecv :: a) b eq_refl). }
    destruct (nth_error arr pos) as [f|] eqn:N.
    + assert (pos < length arr) by (apply nth_error_Some; congruence).
      cbn [app]. unfold missed. cbn [map list_sum fold_right plus]. apply IH; [lia|]. intros a b E. specialize (Hr a b E).
      cbn [r_run r_step] in Hr. rewrite N in Hr.
      replace (pos + cap <? length arr) with false in Hr by (symmetry; apply Nat.ltb_ge; lia).
      cbn [app got_frames flat_map length] in Hr. unfold got_frames in *. cbn [flat_map app length] in Hr. lia.
    + cbn [app]. unfold missed. cbn [map list_sum fold_right plus]. apply IH; [lia|]. intros a b E. specialize (Hr a b E).
      cbn [r_run r_step] in Hr. rewrite N in Hr.
      replace (pos + cap <? length arr) with false in Hr by (symmetry; apply Nat.ltb_ge; lia). exact Hr.
Qed.

(** The subscriber that opened the channel and never lets more messages wait than
    the depth it asked for loses none. *)
Theorem C39_no_loss_within_depth :
  forall no_wait ops s outs k depth id s1 more s2 outs2,
    sub_run no_wait ops subs_new = Some (s, outs) ->
    sub_step no_wait (SubscribeMulti k depth) s = Some (s1, ORes (Subscribed id)) ->
    sub_run no_wait more s1 = Some (s2, outs2) ->
    m_undisturbed id more ->
    no_confusion k (multi_keys (ops ++ [SubscribeMulti k depth] ++ more)) more ->
    (forall id', ~ obtained_multi (combine ops outs) k id') ->
    (forall a b sa oa, more = a ++ b -> sub_run no_wait a s1 = Some (sa, oa) ->
       length (arrivals k a) <= length (got_frames (m_results id a oa)) + depth) ->
    missed (m_results id more outs2) = 0.
Proof.
  intros nw ops s outs k d id s1 more s2 outs2 R St R2 U NC Fresh Small.
  destruct (C39_reader _ _ _ _ _ _ _ _ R St) as (cap & Dp & E). specialize (Dp Fresh).
  assert (Pre : forall a b, more = a ++ b ->
     length (arrivals k a) <= length (got_frames (r_run cap ([], 0) (m_view k id a))) + cap).
  { intros a b ->. pose proof R2 as R3. rewrite run_app in R3. destruct (sub_run nw a s1) as [[sa oa]|] eqn:Ra; [|discriminate].
    pose proof (Small a b sa oa eq_refl Ra) as X.
    rewrite (E a sa oa Ra) in X; [lia| |].
    - destruct U as [U1 U2]. split; intros Y; [apply U1|apply U2]; apply in_app_iff; auto.
    - intros f k' Y1 Y2 Y3. apply (NC f k'); auto; [apply in_app_iff; auto|].
      unfold multi_keys in *. rewrite !flat_map_app in *. rewrite !in_app_iff in *. tauto. }
  rewrite (E _ _ _ R2 U NC). apply r_run_no_miss; [cbn; lia|].
  intros a b Eab. cbn [length plus].
  assert (Ex : exists a' b', more = a' ++ b' /\ m_view k id a' = a).
  { clear - Eab. revert a Eab. induction more as [|o more IH]; intros a Eab.
    - destruct a; [|discriminate]. exists [], []. auto.
    - destruct a as [|e a]; [exists [], (o :: more); auto|].
      assert (Skip : m_view k id more = (e :: a) ++ b -> (forall l, m_view k id (o :: l) = m_view k id l) ->
         exists a' b', o :: more = a' ++ b' /\ m_view k id a' = e :: a).
      { intros X Y. destruct (IH _ X) as (a' & b' & -> & Z). exists (o :: a'), b'. rewrite Y. auto. }
      destruct o; cbn [m_view] in Eab; try (apply Skip; auto; fail).
      + destruct (of_topic k f) eqn:OT; [|apply Skip; auto; intros l; cbn [m_view]; now rewrite OT].
        injection Eab as <- Eab. destruct (IH _ Eab) as (a' & b' & -> & Z). exists (Deliver f :: a'), b'. cbn [m_view]. rewrite OT, Z. auto.
      + destruct (id0 =? id) eqn:OT; [|apply Skip; auto; intros l; cbn [m_view]; now rewrite OT].
        injection Eab as <- Eab. destruct (IH _ Eab) as (a' & b' & -> & Z). exists (ReceiveM id0 :: a'), b'. cbn [m_view]. rewrite OT, Z. auto. }
  destruct Ex as (a' & b' & Em & <-). rewrite m_view_arrivals. specialize (Pre _ _ Em). lia.
Qed.
Print Assumptions C39_no_loss_within_depth.

(** ** Concrete keys: [ka] and [kc] agree when compacted to one byte. *)
Local Open Scope N_scope.
Definition ka : Key8 := K8 1 0 0 0 0 0 0 0.
Definition kb : Key8 := K8 2 0 0 0 0 0 0 0.
Definition kc : Key8 := K8 0 1 0 0 0 0 0 0.
Definition short_frame (b : N) (body : list N) : RpcFrame := MkFrame (MkHeader (VKey1 (K1 b)) (Seq1 0)) body.
Definition long_frame (k : Key8) (body : list N) : RpcFrame := MkFrame (MkHeader (VKey8 k) (Seq4 0)) body.
Local Close Scope N_scope.

(** ** C40 *)

(** Refuted: dropping a subscription can end another one.  A subscription to
    another topic whose key merely agrees with the dropped one's at the length the
    device uses on the wire is removed along with it, although its user still
    holds it and it was working. *)
Theorem C40_refuted :
  exists no_wait ops s outs f s' out id k,
    sub_run no_wait ops subs_new = Some (s, outs) /\
    obtained (combine ops outs) k id /\ live s id /\
    sub_step no_wait (Deliver f) s = Some (s', out) /\
    x_alive id s' = true /\ connected id (exclusive_list s') = false /\
    sub_step no_wait (ReceiveX id) s' = Some (s', OX XEnded).
Proof.
  exists true, [SubscribeExclusive ka 1; SubscribeExclusive kc 1; DropX 0].
  eexists _, _, (short_frame 1 []), _, _, 1, kc.
  split; [vm_compute; reflexivity|]. split; [exists 1; vm_compute; auto|]. split; [vm_compute; auto|].
  split; [vm_compute; reflexivity|]. vm_compute. auto.
Qed.
Print Assumptions C40_refuted.

(** What does hold: as long as no other exclusively subscribed topic shares its
    wire key, nothing that happens to other subscriptions (including their being
    dropped and cleaned up) ends a subscription. *)
Theorem C40_exclusive_partial :
  forall no_wait ops s outs k depth id s1 more s2 outs2 o,
    sub_run no_wait ops subs_new = Some (s, outs) ->
    (o = SubscribeExclusive k depth \/ o = SubscribeLegacy k depth) ->
    sub_step no_wait o s = Some (s1, ORes (Subscribed id)) ->
    sub_run no_wait more s1 = Some (s2, outs2) ->
    x_undisturbed k id more ->
    no_confusion k (exclusive_keys (ops ++ [o] ++ more)) more ->
    ~ In XEnded (x_results id more outs2).
Proof.
  intros nw ops s outs k d id s1 more s2 outs2 o R Ho St R2 U NC.
  rewrite (C38_bounded_fifo _ _ _ _ _ _ _ _ _ _ _ _ R Ho St R2 U NC).
  assert (G : forall es st, ~ In XEnded (q_run nw d st es)).
  { induction es as [|e es IH]; intros [q w] X; [destruct X|]. cbn [q_run] in X.
    destruct (q_step nw d (q, w) e) as [st' out] eqn:E. apply in_app_iff in X. destruct X as [X|X]; [|eapply IH; eauto].
    destruct e; cbn [q_step] in E.
    - destruct (length q <? d); [|destruct nw]; injection E as <- <-; destruct X.
    - destruct w; injection E as <- <-; destruct X.
    - injection E as <- <-; destruct X.
    - destruct q; injection E as <- <-; destruct X as [X|[]]; discriminate. }
  apply G.
Qed.
Print Assumptions C40_exclusive_partial.

Theorem C40_broadcast_partial :
  forall no_wait ops s outs k depth id s1 more s2 outs2,
    sub_run no_wait ops subs_new = Some (s, outs) ->
    sub_step no_wait (SubscribeMulti k depth) s = Some (s1, ORes (Subscribed id)) ->
    sub_run no_wait more s1 = Some (s2, outs2) ->
    m_undisturbed id more ->
    no_confusion k (multi_keys (ops ++ [SubscribeMulti k depth] ++ more)) more ->
    ~ In MClosed (m_results id more outs2).
Proof. intros. eapply C39_accounting; eauto. Qed.
Print Assumptions C40_broadcast_partial.

(** One clean-up: whatever the keys, a subscription whose key does not match the
    arriving frame stays connected. *)
Theorem C40_other_keys_partial :
  forall no_wait f s s' out k id,
    sub_step no_wait (Deliver f) s = Some (s', out) -> of_topic k f = false ->
    (In (k, id) (exclusive_list s) -> In (k, id) (exclusive_list s')) /\
    (In (k, id) (broadcast_list s) -> In (k, id) (broadcast_list s')).
Proof.
  intros nw f s s' out k id H OT. unfold sub_step in H.
  destruct (blocked s || s_stopped s)%bool; [discriminate|]. destruct (deliver nw f s) as [s1 d] eqn:E. injection H as <- <-.
  rewrite deliver_eq in E. cbv zeta in E. destruct (deliver_mul f s) as [[bs h1] rm].
  destruct (find (key_matches (hdr_key (f_hdr f))) (exclusive_list s)) as [[k' c']|].
  - destruct (mpsc_try_send c' f (s_chans s)) as [chans r].
    destruct r; [|destruct nw|]; injection E as <- <-; cbn [finish exclusive_list broadcast_list]; split; auto; intros X; now apply retain_keep.
  - injection E as <- <-; cbn [finish exclusive_list broadcast_list]; split; auto; intros X; now apply retain_keep.
Qed.
Print Assumptions C40_other_keys_partial.

(** ** C41, subscriptions *)

(** A frame is passed on to pending requests exactly when no subscription of either
    kind is registered under a matching key. *)
Theorem C41_offered_to_requests_iff :
  forall no_wait f s s' d,
    sub_step no_wait (Deliver f) s = Some (s', ODelivery d) ->
    (d = NotHandled <->
     (forall k id, In (k, id) (exclusive_list s) -> of_topic k f = false) /\
     (forall k id, In (k, id) (broadcast_list s) -> of_topic k f = false)) /\
    (d = NotHandled -> s' = s).
Proof.
  intros nw f s s' d H. unfold sub_step in H.
  destruct (blocked s || s_stopped s)%bool eqn:BS; [discriminate|]. apply orb_false_iff in BS. destruct BS as [BS _].
  assert (BN : s_blocked s = None) by (unfold blocked in BS; destruct (s_blocked s); [discriminate|auto]).
  destruct (deliver nw f s) as [s1 d'] eqn:E. injection H as <- <-.
  rewrite deliver_eq in E. cbv zeta in E. destruct (deliver_mul f s) as [[bs h1] rm] eqn:DM.
  destruct (deliver_mul_spec _ _ _ _ _ DM) as [_ DS].
  assert (DT : h1 = true -> exists k id, In (k, id) (broadcast_list s) /\ of_topic k f = true).
  { unfold deliver_mul in DM. destruct (find _ _) as [[k c]|] eqn:F.
    - apply find_some in F. rewrite key_matches_topic in F. eauto.
    - injection DM as <- <- <-. discriminate. }
  destruct (find (key_matches (hdr_key (f_hdr f))) (exclusive_list s)) as [[k' c']|] eqn:F.
  - apply find_some in F. rewrite key_matches_topic in F. destruct F as [F1 F2].
    destruct (mpsc_try_send c' f (s_chans s)) as [chans r].
    assert (d' <> NotHandled) by (destruct r; [|destruct nw|]; injection E as _ <-; discriminate).
    split; [|congruence]. split; [congruence|]. intros [X _]. specialize (X _ _ F1). congruence.
  - pose proof (find_none _ _ F) as NF. injection E as <- <-. destruct h1.
    + split; [|discriminate]. split; [discriminate|]. intros [_ X]. destruct (DT eq_refl) as (k & id & Y & Z). specialize (X _ _ Y). congruence.
    + destruct (DS eq_refl) as (-> & -> & NB). split.
      * split; auto. intros _. split.
        -- intros k id Y. rewrite <- (key_matches_topic k id f). apply NF. exact Y.
        -- intros k id Y. rewrite <- (key_matches_topic k id f). apply NB. exact Y.
      * intros _. unfold finish, retain. cbn. destruct s. cbn in *. now subst.
Qed.
Print Assumptions C41_offered_to_requests_iff.

(** A frame reaches both kinds of subscription to its topic. *)
Theorem C41_reaches_both :
  forall no_wait ops s outs f s' d k x m rx ch,
    sub_run no_wait ops subs_new = Some (s, outs) ->
    sub_step no_wait (Deliver f) s = Some (s', ODelivery d) -> of_topic k f = true ->
    (* an exclusive subscription with room in its queue *)
    In (k, x) (exclusive_list s) -> nth_error (s_chans s) x = Some ch -> m_rx ch = true -> length (m_queue ch) < m_cap ch ->
    (* a broadcast subscription *)
    In (k, r_chan rx) (broadcast_list s) -> nth_error (s_mrxs s) m = Some rx -> r_alive rx = true ->
    (* and no other subscribed topic shares the frame's key *)
    (forall k' i, In (k', i) (exclusive_list s) \/ In (k', i) (broadcast_list s) -> of_topic k' f = true -> k' = k) ->
    d = Handled /\
    queue_of s' x = queue_of s x ++ [f] /\
    exists b b', nth_error (s_bcasts s) (r_chan rx) = Some b /\ nth_error (s_bcasts s') (r_chan rx) = Some b' /\
      b_log b' = b_log b ++ [f] /\ s_mrxs s' = s_mrxs s.
Proof.
  intros nw ops s outs f s' d k x m rx ch R H OT Kx Nx Ax Room Km Nm Am Only.
  pose proof (reach_inv _ _ _ _ R) as I. unfold sub_step in H.
  destruct (blocked s || s_stopped s)%bool; [discriminate|]. destruct (deliver nw f s) as [s1 d'] eqn:E. injection H as <- <-.
  rewrite deliver_eq in E. cbv zeta in E.
  assert (FX : find (key_matches (hdr_key (f_hdr f))) (exclusive_list s) = Some (k, x)).
  { apply find_unique; auto. intros [k' i'] Y M. rewrite key_matches_topic in M.
    assert (k' = k) by eauto. subst k'. f_equal. eapply nodup_fst_in; eauto. apply (i_keys _ _ I). }
  assert (FM : find (key_matches (hdr_key (f_hdr f))) (broadcast_list s) = Some (k, r_chan rx)).
  { apply find_unique; auto. intros [k' i'] Y M. rewrite key_matches_topic in M.
    assert (k' = k) by eauto. subst k'. f_equal. eapply nodup_fst_in; eauto. apply (i_bkeys _ _ I). }
  unfold deliver_mul in E. rewrite FM, FX in E. unfold bcast_send in E.
  assert (HR : has_receiver (r_chan rx) (s_mrxs s) = true).
  { unfold has_receiver. apply existsb_exists. exists rx. split; [eapply nth_error_In; eauto|]. now rewrite Am, Nat.eqb_refl. }
  rewrite HR in E. destruct (nth_error (s_bcasts s) (r_chan rx)) as [b|] eqn:Nb.
  2: { apply nth_error_None in Nb. apply (i_blt _ _ I) in Km. lia. }
  unfold mpsc_try_send in E. rewrite Nx, Ax in E.
  replace (length (m_queue ch) <? m_cap ch) with true in E by (symmetry; apply Nat.ltb_lt; auto). injection E as <- <-.
  split; auto. unfold queue_of. cbn [finish s_chans s_bcasts s_mrxs]. rewrite (set_nth_some _ _ _ _ _ Nx), Nx. split; auto.
  exists b. eexists. split; auto. rewrite (set_nth_some _ _ _ _ _ Nb). auto.
Qed.
Print Assumptions C41_reaches_both.

(** ** C58: the depth asked for by a broadcast subscriber *)

(** Refuted: a subscriber that never has more messages waiting than the depth it
    asked for can lose some: the depth of whoever subscribed first counts. *)
Theorem C58_refuted :
  exists ops s outs k depth id s1 more s2 outs2,
    sub_run true ops subs_new = Some (s, outs) /\
    sub_step true (SubscribeMulti k depth) s = Some (s1, ORes (Subscribed id)) /\
    sub_run true more s1 = Some (s2, outs2) /\
    m_undisturbed id more /\
    no_confusion k (multi_keys (ops ++ [SubscribeMulti k depth] ++ more)) more /\
    length (arrivals k more) <= depth /\
    m_results id more outs2 = [MLagged 1; MGot (long_frame ka [2%N])].
Proof.
  exists [SubscribeMulti ka 1]. eexists _, _, ka, 16, 1, _.
  exists [Deliver (long_frame ka [1%N]); Deliver (long_frame ka [2%N]); ReceiveM 1; ReceiveM 1]. eexists _, _.
  split; [vm_compute; reflexivity|]. split; [vm_compute; reflexivity|]. split; [vm_compute; reflexivity|].
  split; [split; intros X; cbn in X; intuition discriminate|].
  split; [intros f k' _ _ X _; cbn in X; intuition|]. split; [vm_compute; lia|]. vm_compute. reflexivity.
Qed.
Print Assumptions C58_refuted.

(** What does hold: the subscriber that opens the channel gets at least its depth
    ([C39_no_loss_within_depth]); any subscriber gets the capacity of the channel
    it joins, which is between the depth with which it was opened and twice that. *)
Theorem C58_opener_partial :
  forall no_wait ops s outs k depth id s1 more s2 outs2,
    sub_run no_wait ops subs_new = Some (s, outs) ->
    sub_step no_wait (SubscribeMulti k depth) s = Some (s1, ORes (Subscribed id)) ->
    sub_run no_wait more s1 = Some (s2, outs2) ->
    m_undisturbed id more ->
    no_confusion k (multi_keys (ops ++ [SubscribeMulti k depth] ++ more)) more ->
    (forall id', ~ obtained_multi (combine ops outs) k id') ->
    length (arrivals k more) <= depth ->
    missed (m_results id more outs2) = 0.
Proof.
  intros nw ops s outs k d id s1 more s2 outs2 R St R2 U NC Fr Le.
  eapply C39_no_loss_within_depth; eauto. intros a b sa oa -> _. unfold arrivals in *. rewrite flat_map_app, app_length in Le. lia.
Qed.
Print Assumptions C58_opener_partial.

(** ** C36: broadcast subscriptions drain and then report that they are closed *)
Definition close_waiting (r : RecvM) : RecvM := match r with MWaiting => MClosed | _ => r end.

Lemma stopped_m nw id k c cap ops : forall s arr pos pre s' outs,
  s_stopped s = true -> s_blocked s = None -> broadcast_list s = [] ->
  nth_error (s_bcasts s) c = Some (MkBcast cap (pre ++ arr)) ->
  nth_error (s_mrxs s) id = Some (MkMrx c (length pre + pos) true) ->
  ~ In (DropM id) ops -> sub_run nw ops s = Some (s', outs) ->
  m_results id ops outs = map close_waiting (r_run cap (arr, pos) (m_view k id ops)).
Proof.
  induction ops as [|o ops IH]; intros s arr pos pre s' outs St Bk Bl Nc Nr ND H; cbn [sub_run] in H; [injection H as <- <-; reflexivity|].
  destruct (sub_step nw o s) as [[s1 e]|] eqn:E1; [|discriminate].
  destruct (sub_run nw ops s1) as [[s2 es]|] eqn:E2; [|discriminate]. injection H as <- <-.
  assert (ND' : ~ In (DropM id) ops) by (intros X; apply ND; now right).
  assert (RLt : id < length (s_mrxs s)) by (apply nth_error_Some; congruence).
  unfold sub_step in E1. destruct o.
  - unfold subscribe_mpsc in E1. unfold blocked in E1. rewrite Bk, St in E1.
    destruct depth; injection E1 as <- <-; cbn [m_results m_view]; (refine (IH _ arr pos pre _ _ _ _ _ _ _ ND' E2); assumption).
  - unfold subscribe_mpsc in E1. unfold blocked in E1. rewrite Bk, St in E1.
    destruct depth; injection E1 as <- <-; cbn [m_results m_view]; (refine (IH _ arr pos pre _ _ _ _ _ _ _ ND' E2); assumption).
  - unfold subscribe_multi, blocked in E1. rewrite Bk, St in E1. injection E1 as <- <-; cbn [m_results m_view]; (refine (IH _ arr pos pre _ _ _ _ _ _ _ ND' E2); assumption).
  - rewrite St, orb_true_r in E1. discriminate.
  - unfold unblock in E1. rewrite Bk in E1. discriminate.
  - destruct (x_alive id0 s); [|discriminate]. unfold recv_exclusive in E1. cbn [m_results m_view].
    destruct (nth_error (s_chans s) id0) as [ch|]; [destruct (m_queue ch); [destruct (connected id0 (exclusive_list s))|]|];
      injection E1 as <- <-; (refine (IH _ arr pos pre _ _ _ _ _ _ _ ND' E2); assumption).
  - destruct (m_alive id0 s); [|discriminate]. destruct (recv_multi id0 s) as [s3 r] eqn:E. injection E1 as <- <-.
    cbn [m_results m_view]. unfold recv_multi in E. destruct (Nat.eqb_spec id0 id) as [->|NE].
    + rewrite Nr in E. cbn [r_chan r_next r_alive] in E. rewrite Nc in E. cbn [b_log b_cap] in E. rewrite app_length in E.
      cbn [r_run r_step].
      destruct (Nat.ltb_spec (length pre + pos) (length pre + length arr - cap)) as [L|L].
      * injection E as <- <-. replace (pos + cap <? length arr) with true by (symmetry; apply Nat.ltb_lt; lia).
        cbn [app map close_waiting].
        replace (length pre + length arr - cap - (length pre + pos)) with (length arr - cap - pos) by lia.
        f_equal. refine (IH _ arr (length arr - cap) pre _ _ _ _ _ _ _ ND' E2); auto.
        cbn [s_mrxs]. rewrite set_nth_same by auto. do 2 f_equal. lia.
      * replace (pos + cap <? length arr) with false by (symmetry; apply Nat.ltb_ge; lia).
        rewrite nth_error_app2 in E by lia. replace (length pre + pos - length pre) with pos in E by lia.
        destruct (nth_error arr pos) as [f|] eqn:N.
        -- injection E as <- <-. cbn [app map close_waiting]. f_equal.
           refine (IH _ arr (S pos) pre _ _ _ _ _ _ _ ND' E2); auto.
           cbn [s_mrxs]. rewrite set_nth_same by auto. do 2 f_equal. lia.
        -- rewrite Bl in E. cbn in E. injection E as <- <-. cbn [app map close_waiting]. f_equal. (refine (IH _ arr pos pre _ _ _ _ _ _ _ ND' E2); assumption).
    + destruct (nth_error (s_mrxs s) id0) as [rx|]; [|injection E as <- <-; (refine (IH _ arr pos pre _ _ _ _ _ _ _ ND' E2); assumption)].
      destruct (nth_error (s_bcasts s) (r_chan rx)); [|injection E as <- <-; (refine (IH _ arr pos pre _ _ _ _ _ _ _ ND' E2); assumption)].
      destruct (_ <? _) in E; [injection E as <- <-; refine (IH _ arr pos pre _ _ _ _ _ _ _ ND' E2); auto; cbn [s_mrxs]; rewrite set_nth_other; auto|].
      destruct (nth_error _ (r_next rx)) in E; [injection E as <- <-; refine (IH _ arr pos pre _ _ _ _ _ _ _ ND' E2); auto; cbn [s_mrxs]; rewrite set_nth_other; auto|].
      destruct (connected (r_chan rx) (broadcast_list s)); injection E as <- <-; (refine (IH _ arr pos pre _ _ _ _ _ _ _ ND' E2); assumption).
  - destruct (x_alive id0 s); [|discriminate]. injection E1 as <- <-. cbn [m_results m_view]. unfold drop_exclusive in E2.
    destruct (nth_error (s_chans s) id0); (refine (IH _ arr pos pre _ _ _ _ _ _ _ ND' E2); assumption).
  - destruct (m_alive id0 s); [|discriminate]. injection E1 as <- <-. cbn [m_results m_view]. unfold drop_multi in E2.
    assert (id0 <> id) by (intros ->; apply ND; now left).
    destruct (nth_error (s_mrxs s) id0); [|(refine (IH _ arr pos pre _ _ _ _ _ _ _ ND' E2); assumption)].
    refine (IH _ arr pos pre _ _ _ _ _ _ _ ND' E2); auto. cbn [s_mrxs]. rewrite set_nth_other; auto.
  - injection E1 as <- <-. cbn [m_results m_view]. refine (IH _ arr pos pre _ _ _ _ _ _ _ ND' E2); auto.
Qed.

(** A broadcast subscription outlives the client: what it is given after the stop
    is what it would have been given anyway, except that it is told the stream is
    closed where it would have been kept waiting. *)
Theorem C36_broadcast_drains :
  forall no_wait ops s outs k depth id s1 before s2 outs2 after s3 outs3,
    sub_run no_wait ops subs_new = Some (s, outs) ->
    sub_step no_wait (SubscribeMulti k depth) s = Some (s1, ORes (Subscribed id)) ->
    sub_run no_wait before s1 = Some (s2, outs2) ->
    m_undisturbed id before ->
    no_confusion k (multi_keys (ops ++ [SubscribeMulti k depth] ++ before)) before ->
    sub_run no_wait (StopWorker :: after) s2 = Some (s3, ONone :: outs3) -> ~ In (DropM id) after ->
    exists cap ref,
      r_run cap ([], 0) (m_view k id (before ++ after)) = m_results id before outs2 ++ ref /\
      m_results id after outs3 = map close_waiting ref.
Proof.
  intros nw ops s outs k d id s1 before s2 outs2 after s3 outs3 R St R2 U NC R3 ND.
  destruct (inv_run _ _ _ _ _ _ inv_new R) as [L I]. cbn [app] in I.
  pose proof (inv_step _ _ _ _ _ _ I St) as I1.
  assert (Kx : forall k' c', In (k', c') (broadcast_list s1) -> In k' (multi_keys (ops ++ [SubscribeMulti k d] ++ before))).
  { intros k' c' X. apply (i_bk _ _ I1) in X. destruct X as [i X]. apply obtained_multi_app in X.
    unfold multi_keys. rewrite !flat_map_app, !in_app_iff. destruct X as [(d' & X)|(d' & X)].
    - left. apply in_combine_l in X. apply in_flat_map. eexists. split; [exact X|]. now left.
    - right. left. injection X as <- _ _. now left. }
  assert (Inc : incl (multi_keys before) (multi_keys (ops ++ [SubscribeMulti k d] ++ before))).
  { unfold multi_keys. rewrite !flat_map_app. apply incl_appr, incl_appr, incl_refl. }
  assert (M : exists c cap pre, MSim k id c cap pre (multi_keys (ops ++ [SubscribeMulti k d] ++ before)) s1 [] 0).
  { cbn [sub_step] in St. unfold blocked in St. destruct (s_blocked s) eqn:BN; [discriminate|].
    destruct (subscribe_multi k d s) as [s1' r] eqn:E. injection St as -> ->.
    unfold subscribe_multi in E. destruct (s_stopped s); [discriminate|].
    destruct (find _ _) as [[k' c]|] eqn:F.
    - apply find_key in F. cbn in F. destruct F as [-> F]. injection E as <- <-.
      destruct (nth_error (s_bcasts s) c) as [b|] eqn:Nb.
      2: { apply nth_error_None in Nb. apply (i_blt _ _ I) in F. lia. }
      exists c, (b_cap b), (b_log b). constructor; cbn [broadcast_list s_bcasts s_mrxs s_blocked]; auto.
      + rewrite app_nil_r. destruct b; auto.
      + rewrite nth_error_app2, Nat.sub_diag by lia. cbn. do 2 f_equal. lia.
      + intros. congruence.
    - destruct d as [|d]; [discriminate|]. injection E as <- <-.
      exists (length (s_bcasts s)), (next_power_of_two (S d)), [].
      constructor; cbn [broadcast_list s_bcasts s_mrxs s_blocked]; auto.
      + apply in_app_iff. right. now left.
      + rewrite nth_error_app2, Nat.sub_diag by lia. reflexivity.
      + rewrite nth_error_app2, Nat.sub_diag by lia. reflexivity.
      + intros. congruence. }
  destruct M as (c & cap & pre & M).
  destruct (m_sim_state nw k id c cap pre _ before _ _ _ _ _ _ I1 M Inc NC U R2) as (arr & pos & M2 & G).
  exists cap. eexists. split; [apply G|].
  cbn [sub_run sub_step] in R3. destruct (sub_run nw after (stop_subs s2)) as [[s4 es]|] eqn:R4; [|discriminate]. injection R3 as <- <-.
  refine (stopped_m nw id k c cap after (stop_subs s2) arr pos pre _ _ _ _ _ _ _ ND R4); try reflexivity.
  - apply (ms_chan _ _ _ _ _ _ _ _ _ M2).
  - apply (ms_rx _ _ _ _ _ _ _ _ _ M2).
Qed.
Print Assumptions C36_broadcast_drains.

(** ** Worked histories *)

(** Two topics, an exclusive subscription of depth 1 on one of them and broadcast
    subscriptions on both; the exclusive one overflows, is replaced, drains. *)
Definition ex_f (n : N) := long_frame ka [n].
Definition ex_g (n : N) := long_frame kb [n].
Definition ex_more : list SubOp :=
  [SubscribeMulti ka 2; SubscribeMulti kb 1; Deliver (ex_f 1); Deliver (ex_g 2); Deliver (ex_f 3); ReceiveX 0; ReceiveX 0;
   Deliver (ex_f 4); ReceiveM 0; ReceiveM 0; ReceiveM 0; ReceiveM 1; ReceiveM 1].

(** C38, C40: the hypotheses hold of [ex_more], and the queue overflowed once. *)
Example C38_ex :
  exists s1 s2 outs2,
    sub_step true (SubscribeExclusive ka 1) subs_new = Some (s1, ORes (Subscribed 0)) /\
    sub_run true ex_more s1 = Some (s2, outs2) /\
    x_undisturbed ka 0 ex_more /\
    no_confusion ka (exclusive_keys ([] ++ [SubscribeExclusive ka 1] ++ ex_more)) ex_more /\
    x_results 0 ex_more outs2 = [XGot (ex_f 1); XWaiting] /\ arrivals ka ex_more = [ex_f 1; ex_f 3; ex_f 4].
Proof.
  eexists _, _, _. split; [vm_compute; reflexivity|]. split; [vm_compute; reflexivity|].
  split; [split; [|split]; intros; intros X; cbn in X; intuition discriminate|].
  split; [intros f k' _ _ X _; cbn in X; intuition|]. vm_compute. auto.
Qed.

(** With a waiting time: the second message is delayed and gets in once there is room. *)
Example C38_ex_wait :
  exists s1 s2 outs2,
    sub_step false (SubscribeExclusive ka 1) subs_new = Some (s1, ORes (Subscribed 0)) /\
    sub_run false [Deliver (ex_f 1); Deliver (ex_f 2); ReceiveX 0; Unblock RoomFound; ReceiveX 0; Deliver (ex_f 3); Deliver (ex_f 4); Unblock TimeUp; ReceiveX 0; ReceiveX 0] s1 = Some (s2, outs2) /\
    x_results 0 [Deliver (ex_f 1); Deliver (ex_f 2); ReceiveX 0; Unblock RoomFound; ReceiveX 0; Deliver (ex_f 3); Deliver (ex_f 4); Unblock TimeUp; ReceiveX 0; ReceiveX 0] outs2
      = [XGot (ex_f 1); XGot (ex_f 2); XGot (ex_f 3); XWaiting].
Proof. eexists _, _, _. split; [vm_compute; reflexivity|]. split; vm_compute; reflexivity. Qed.

(** C39: a subscriber that keeps up, and one that is told it missed a message. *)
Definition ex_multi : list SubOp :=
  [SubscribeMulti ka 7; Deliver (ex_f 1); ReceiveM 0; Deliver (ex_f 2); Deliver (ex_g 9); Deliver (ex_f 3); ReceiveM 0; ReceiveM 0; ReceiveM 0;
   ReceiveM 1; ReceiveM 1; DropM 1; Deliver (ex_f 4); ReceiveM 0].
Example C39_ex :
  exists s1 s2 outs2,
    sub_step true (SubscribeMulti ka 2) subs_new = Some (s1, ORes (Subscribed 0)) /\
    sub_run true ex_multi s1 = Some (s2, outs2) /\
    m_undisturbed 0 ex_multi /\
    no_confusion ka (multi_keys ([] ++ [SubscribeMulti ka 2] ++ ex_multi)) ex_multi /\
    m_results 0 ex_multi outs2 = [MGot (ex_f 1); MGot (ex_f 2); MGot (ex_f 3); MWaiting; MGot (ex_f 4)] /\
    m_results 1 ex_multi outs2 = [MLagged 1; MGot (ex_f 2)].
Proof.
  eexists _, _, _. split; [vm_compute; reflexivity|]. split; [vm_compute; reflexivity|].
  split; [split; intros X; cbn in X; intuition discriminate|].
  split; [intros f k' _ _ X _; cbn in X; intuition|]. vm_compute. auto.
Qed.
(** C37: refused while held, granted after a drop, ended by the deprecated subscribe. *)
Example C37_ex :
  exists s outs,
    sub_run true [SubscribeExclusive ka 2; SubscribeExclusive ka 2; SubscribeExclusive kb 2; DropX 0; SubscribeExclusive ka 2;
                  Deliver (ex_f 1); SubscribeLegacy ka 2; Deliver (ex_f 2); ReceiveX 2; ReceiveX 2; ReceiveX 3] subs_new = Some (s, outs) /\
    outs = [ORes (Subscribed 0); ORes AlreadySubscribed; ORes (Subscribed 1); ONone; ORes (Subscribed 2);
            ODelivery Handled; ORes (Subscribed 3); ODelivery Handled; OX (XGot (ex_f 1)); OX XEnded; OX (XGot (ex_f 2))].
Proof. eexists _, _. split; vm_compute; reflexivity. Qed.

(** C36: after the stop, both kinds drain; later subscribes fail. *)
Example C36_ex_subs :
  exists s outs,
    sub_run true [SubscribeExclusive ka 2; SubscribeMulti ka 2; Deliver (ex_f 1); StopWorker; ReceiveX 0; ReceiveX 0; ReceiveM 0; ReceiveM 0;
                  SubscribeExclusive kb 2; SubscribeMulti kb 2] subs_new = Some (s, outs) /\
    outs = [ORes (Subscribed 0); ORes (Subscribed 0); ODelivery Handled; ONone; OX (XGot (ex_f 1)); OX XEnded; OM (MGot (ex_f 1)); OM MClosed;
            ORes IoClosed; ORes IoClosed].
Proof. eexists _, _. split; vm_compute; reflexivity. Qed.

(** C41: both kinds get the frame; an unrelated frame is passed on to the requests. *)
Example C41_ex_subs :
  exists s outs,
    sub_run true [SubscribeExclusive ka 2; SubscribeMulti ka 2; Deliver (ex_g 7); Deliver (ex_f 1); ReceiveX 0; ReceiveM 0] subs_new = Some (s, outs) /\
    outs = [ORes (Subscribed 0); ORes (Subscribed 0); ODelivery NotHandled; ODelivery Handled; OX (XGot (ex_f 1)); OM (MGot (ex_f 1))].
Proof. eexists _, _. split; vm_compute; reflexivity. Qed.
