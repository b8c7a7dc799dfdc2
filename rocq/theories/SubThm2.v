(** Property theorems for subscriptions, continued: C38-C41, C58. *)
From Coq Require Import NArith List Bool Arith Lia.
From Verif Require Import KeyModel HeaderModel KeySpec KeyProof UsbSpec SubModel SubSpec SubProof SubThm.
Import ListNotations.

(** ** C38: simulation with the reference queue *)

Definition blockrel (k : Key8) (id : nat) (s : Subs) (w : option RpcFrame) (mine : bool) : Prop :=
  match s_blocked s with
  | None => w = None
  | Some (c, f, _) => if mine then c = id /\ w = Some f else c <> id /\ w = None /\ of_topic k f = false
  end.

Lemma key_matches_topic k c f : key_matches (hdr_key (f_hdr f)) (k, c) = of_topic k f.
Proof. reflexivity. Qed.

Lemma retain_keep b key k c l : varkey_eqb (VKey8 k) key = false -> In (k, c) l -> In (k, c) (retain b key l).
Proof. intros H X. destruct b; auto. unfold retain. apply filter_In. split; auto. unfold key_matches. cbn [fst]. now rewrite H. Qed.

Section Sim.
  Variable nw : bool.
  Variables (k : Key8) (id depth : nat) (keys : list Key8).

  Record XSim (s : Subs) (q : list RpcFrame) (w : option RpcFrame) (mine : bool) : Prop := {
    x_keys : forall k' i, In (k', i) (exclusive_list s) -> In k' keys;
    x_here : In (k, id) (exclusive_list s);
    x_chan : nth_error (s_chans s) id = Some (MkMpsc depth q true);
    x_blk : blockrel k id s w mine }.

  Lemma x_step tr s q w mine o s' out : Inv tr s -> XSim s q w mine ->
    incl (exclusive_keys [o]) keys -> no_confusion k keys [o] -> x_undisturbed k id [o] ->
    sub_step nw o s = Some (s', out) ->
    exists q' w' mine', XSim s' q' w' mine' /\
      forall ops outs,
        (exists st, q_run nw depth (q, w) (x_view k id mine (o :: ops)) = st ++ q_run nw depth (q', w') (x_view k id mine' ops) /\
                    x_results id (o :: ops) (out :: outs) = st ++ x_results id ops outs).
  Proof.
    intros I X Kk NC (U1 & U2 & U3) H.
    destruct X as [XK XH XC XB].
    assert (Same : forall q' w' mine', q' = q -> w' = w -> mine' = mine -> s' = s ->
      (forall ops, x_view k id mine (o :: ops) = x_view k id mine ops) ->
      (forall ops outs, x_results id (o :: ops) (out :: outs) = x_results id ops outs) ->
      exists q' w' mine', XSim s' q' w' mine' /\
        forall ops outs, exists st, q_run nw depth (q, w) (x_view k id mine (o :: ops)) = st ++ q_run nw depth (q', w') (x_view k id mine' ops) /\
                    x_results id (o :: ops) (out :: outs) = st ++ x_results id ops outs).
    { intros _ _ _ _ _ _ -> V R. exists q, w, mine. split; [constructor; auto|]. intros ops outs. exists []. rewrite V, R. auto. }
    assert (Quiet : forall q' w' mine', XSim s' q' w' mine' -> q' = q -> w' = w -> mine' = mine ->
      (forall ops, x_view k id mine (o :: ops) = x_view k id mine ops) ->
      (forall ops outs, x_results id (o :: ops) (out :: outs) = x_results id ops outs) ->
      exists q' w' mine', XSim s' q' w' mine' /\
        forall ops outs, exists st, q_run nw depth (q, w) (x_view k id mine (o :: ops)) = st ++ q_run nw depth (q', w') (x_view k id mine' ops) /\
                    x_results id (o :: ops) (out :: outs) = st ++ x_results id ops outs).
    { intros q' w' mine' XS -> -> -> V R. exists q, w, mine. split; auto. intros ops outs. exists []. rewrite V, R. auto. }
    assert (IdLt : id < length (s_chans s)) by (apply nth_error_Some; congruence).
    assert (Alive : x_alive id s = true) by (unfold x_alive; rewrite XC; reflexivity).
    assert (SubX : forall legacy k0 d s1 r, subscribe_mpsc legacy k0 d s = (s1, r) -> (legacy = true -> k0 <> k) ->
       In k0 keys -> s_blocked s = None -> XSim s1 q w mine).
    { intros legacy k0 d s1 r E NL K0 BN. apply sub_mpsc_cases in E.
      destruct E as [(-> & _)|(_ & _ & -> & l & -> & E)]; [constructor; auto|].
      assert (In (k, id) l /\ forall k' i, In (k', i) l -> In k' keys) as [L1 L2].
      { destruct E as [(old & O & A & ->)|(N & ->)].
        - assert (k0 <> k).
          { destruct legacy; auto. intros ->. destruct A as [A|A]; [discriminate|].
            rewrite (nodup_fst_in _ _ _ _ _ _ (i_keys _ _ I) XH O) in Alive. congruence. }
          split; [apply replace_keeps; auto|]. intros k' i X. apply replace_in in X; [|apply (i_keys _ _ I)].
          destruct X as [(-> & _)|(_ & X)]; eauto.
        - split; [apply in_app_iff; auto|]. intros k' i X. apply in_app_iff in X. destruct X as [X|[X|[]]]; eauto. injection X as <- <-. auto. }
      constructor; cbn [with_exclusive exclusive_list s_chans]; auto.
      rewrite nth_error_app1 by auto. auto. }
    assert (BN : blocked s = false -> s_blocked s = None) by (unfold blocked; destruct (s_blocked s); [discriminate|auto]).
    unfold sub_step in H. destruct o.
    - destruct (blocked s) eqn:Bk; [discriminate|]. destruct (subscribe_mpsc false k0 depth0 s) as [s1 r] eqn:E. injection H as <- <-.
      eapply Quiet; try reflexivity. eapply SubX; eauto; [discriminate|]. apply Kk. now left.
    - destruct (blocked s) eqn:Bk; [discriminate|]. destruct (subscribe_mpsc true k0 depth0 s) as [s1 r] eqn:E. injection H as <- <-.
      eapply Quiet; try reflexivity. eapply SubX; eauto.
      + intros _ ->. apply (U3 depth0). now left.
      + apply Kk. now left.
    - destruct (blocked s) eqn:Bk; [discriminate|]. destruct (subscribe_multi k0 depth0 s) as [s1 r] eqn:E. injection H as <- <-.
      eapply Quiet; try reflexivity.
      unfold subscribe_multi in E. destruct (s_stopped s); [injection E as <- <-; constructor; auto|].
      destruct (find _ _) as [[k' c]|]; [injection E as <- <-; constructor; auto|].
      destruct depth0; injection E as <- <-; constructor; auto.
    - (* Deliver *)
      destruct (blocked s) eqn:Bk; [discriminate|]. destruct (s_stopped s) eqn:St; [discriminate|]. cbn [orb] in H.
      specialize (BN eq_refl). unfold blockrel in XB. rewrite BN in XB. subst w.
      destruct (deliver nw f s) as [s1 dl] eqn:E. injection H as <- <-.
      rewrite deliver_eq in E. cbv zeta in E. destruct (deliver_mul f s) as [[bs h1] rm].
      cbn [x_view x_results]. destruct (of_topic k f) eqn:OT.
      + (* our topic *)
        assert (F : find (key_matches (hdr_key (f_hdr f))) (exclusive_list s) = Some (k, id)).
        { apply find_unique; auto. intros [k' i'] Y M. rewrite key_matches_topic in M.
          assert (k' = k) by (apply (NC f k'); auto; [now left|eauto]). subst k'.
          f_equal. eapply nodup_fst_in; eauto. apply (i_keys _ _ I). }
        rewrite F in E. unfold mpsc_try_send in E. rewrite XC in E. cbn [m_rx m_queue m_cap] in E.
        destruct (length q <? depth) eqn:LQ.
        * injection E as <- <-. exists (q ++ [f]), None, true. split.
          -- constructor; cbn [finish retain exclusive_list s_chans s_blocked]; auto.
             ++ apply set_nth_same. auto.
             ++ reflexivity.
          -- intros ops outs. exists []. cbn [q_run q_step]. rewrite LQ. auto.
        * destruct nw eqn:NW; injection E as <- <-.
          -- exists q, None, true. split; [constructor; auto; reflexivity|].
             intros ops outs. exists []. cbn [q_run q_step]. rewrite LQ. auto.
          -- exists q, (Some f), true. split; [constructor; auto; unfold blockrel; cbn; auto|].
             intros ops outs. exists []. cbn [q_run q_step]. rewrite LQ. auto.
      + (* another topic *)
        assert (Hk : forall b key, key = hdr_key (f_hdr f) -> In (k, id) (retain b key (exclusive_list s))).
        { intros b key ->. apply retain_keep; auto. }
        assert (Rk : forall b key k' i, In (k', i) (retain b key (exclusive_list s)) -> In k' keys).
        { intros b key k' i Y. destruct b; eauto. cbn in Y. apply filter_In in Y. destruct Y. eauto. }
        exists q, None, false. split; [|intros ops outs; exists []; auto].
        destruct (find (key_matches (hdr_key (f_hdr f))) (exclusive_list s)) as [[k' c]|] eqn:F.
        * apply find_some in F. destruct F as [F M]. rewrite key_matches_topic in M.
          assert (NE : c <> id). { intros ->. assert (k' = k) by (eapply nodup_snd_in; eauto; apply (i_ids _ _ I)). subst. congruence. }
          destruct (mpsc_try_send c f (s_chans s)) as [chans r] eqn:T. destruct (try_send_spec _ _ _ _ _ T) as (LC & N & Mr).
          assert (CH : nth_error chans id = Some (MkMpsc depth q true)).
          { destruct r; [|now rewrite N by discriminate|now rewrite N by discriminate].
            destruct Mr as (ch & _ & _ & _ & ->). now rewrite set_nth_other by auto. }
          destruct r; [|destruct nw|]; injection E as <- <-; constructor; cbn [finish exclusive_list s_chans]; auto;
            try (apply Rk); try reflexivity. unfold blockrel. cbn. auto.
        * injection E as <- <-. constructor; cbn [finish exclusive_list s_chans]; auto; try (apply Rk); reflexivity.
    - (* Unblock *)
      destruct (unblock w0 s) as [s1|] eqn:E; [|discriminate]. injection H as <- <-. unfold unblock in E.
      unfold blockrel in XB. destruct (s_blocked s) as [[[c f] rm]|] eqn:Bk; [|discriminate].
      assert (Rk : forall b key k' i, In (k', i) (retain b key (exclusive_list s)) -> In k' keys).
      { intros b key k' i Y. destruct b; eauto. cbn in Y. apply filter_In in Y. destruct Y. eauto. }
      destruct mine.
      + destruct XB as [-> ->]. unfold mpsc_try_send in E. rewrite XC in E. cbn [m_rx m_queue m_cap] in E.
        destruct (length q <? depth) eqn:LQ; destruct w0; try discriminate; injection E as <-; cbn [x_view x_results].
        * exists (q ++ [f]), None, false. split.
          -- constructor; cbn [finish retain with_exclusive exclusive_list s_chans]; auto; [now apply set_nth_same|reflexivity].
          -- intros ops outs. exists []. auto.
        * exists q, None, false. split; [constructor; auto; reflexivity|]. intros ops outs. exists []. auto.
        * exists q, None, false. split; [constructor; auto; reflexivity|]. intros ops outs. exists []. auto.
      + destruct XB as (NE & -> & OT).
        destruct (i_bl _ _ I _ _ _ Bk) as [k' F]. apply find_some in F. destruct F as [F M]. rewrite key_matches_topic in M.
        exists q, None, false.
        destruct (mpsc_try_send c f (s_chans s)) as [chans r] eqn:T. destruct (try_send_spec _ _ _ _ _ T) as (LC & N & Mr).
        assert (CH : nth_error chans id = Some (MkMpsc depth q true)).
        { destruct r; [|now rewrite N by discriminate|now rewrite N by discriminate].
          destruct Mr as (ch & _ & _ & _ & ->). now rewrite set_nth_other by auto. }
        split.
        2: { intros ops outs. exists []. destruct w0; auto. }
        destruct w0, r; try discriminate; injection E as <-; constructor; cbn [finish retain with_exclusive exclusive_list s_chans]; auto;
          try (apply (Rk true)); try reflexivity.
        change (In (k, id) (retain true (hdr_key (f_hdr f)) (exclusive_list s))). now apply retain_keep.
    - (* ReceiveX *)
      destruct (x_alive id0 s) eqn:XA; [|discriminate]. destruct (recv_exclusive id0 s) as [s1 r] eqn:E. injection H as <- <-.
      unfold recv_exclusive in E. cbn [x_view x_results]. destruct (Nat.eqb_spec id0 id) as [->|NE].
      + rewrite XC in E. cbn [m_queue m_cap m_rx] in E. destruct q as [|f q].
        * assert (C : connected id (exclusive_list s) = true) by (apply connected_iff; eauto). rewrite C in E. injection E as <- <-.
          exists [], w, mine. split; [constructor; auto|]. intros ops outs. exists [XWaiting]. auto.
        * injection E as <- <-. exists q, w, mine. split.
          -- constructor; cbn [with_exclusive exclusive_list s_chans]; auto. now apply set_nth_same.
          -- intros ops outs. exists [XGot f]. auto.
      + exists q, w, mine. split; [|intros ops outs; exists []; auto].
        destruct (nth_error (s_chans s) id0) as [ch|]; [|injection E as <- <-; constructor; auto].
        destruct (m_queue ch) as [|f q']; [destruct (connected id0 (exclusive_list s)); injection E as <- <-; constructor; auto|].
        injection E as <- <-. constructor; cbn [with_exclusive exclusive_list s_chans]; auto. rewrite set_nth_other; auto.
    - destruct (m_alive id0 s); [|discriminate]. destruct (recv_multi id0 s) as [s1 r] eqn:E. injection H as <- <-.
      eapply Quiet; try reflexivity. unfold recv_multi in E.
      destruct (nth_error (s_mrxs s) id0) as [rx|]; [|injection E as <- <-; constructor; auto].
      destruct (nth_error (s_bcasts s) (r_chan rx)); [|injection E as <- <-; constructor; auto].
      destruct (_ <? _); [injection E as <- <-; constructor; auto|].
      destruct (nth_error _ (r_next rx)); [injection E as <- <-; constructor; auto|].
      destruct (connected (r_chan rx) (broadcast_list s)); injection E as <- <-; constructor; auto.
    - destruct (x_alive id0 s); [|discriminate]. injection H as <- <-. eapply Quiet; try reflexivity.
      assert (id0 <> id) by (intros ->; apply U2; now left). unfold drop_exclusive.
      destruct (nth_error (s_chans s) id0) as [ch|]; [|constructor; auto].
      constructor; cbn [with_exclusive exclusive_list s_chans]; auto. rewrite set_nth_other; auto.
    - destruct (m_alive id0 s); [|discriminate]. injection H as <- <-. eapply Quiet; try reflexivity.
      unfold drop_multi. destruct (nth_error (s_mrxs s) id0); constructor; auto.
    - exfalso. apply U1. now left.
  Qed.

  Lemma x_sim ops : forall tr s q w mine s' outs, Inv tr s -> XSim s q w mine ->
    incl (exclusive_keys ops) keys -> no_confusion k keys ops -> x_undisturbed k id ops ->
    sub_run nw ops s = Some (s', outs) ->
    x_results id ops outs = q_run nw depth (q, w) (x_view k id mine ops).
  Proof.
    induction ops as [|o ops IH]; intros tr s q w mine s' outs I X Kk NC (U1 & U2 & U3) H; cbn [sub_run] in H.
    - injection H as <- <-. reflexivity.
    - destruct (sub_step nw o s) as [[s1 e]|] eqn:E1; [|discriminate].
      destruct (sub_run nw ops s1) as [[s2 es]|] eqn:E2; [|discriminate]. injection H as <- <-.
      change (exclusive_keys (o :: ops)) with (flat_map (fun o => match o with SubscribeExclusive k _ => [k] | SubscribeLegacy k _ => [k] | _ => [] end) ([o] ++ ops)) in Kk.
      rewrite flat_map_app in Kk. apply incl_app_inv in Kk. destruct Kk as [K1 K2].
      destruct (x_step tr s q w mine o s1 e I X K1) as (q' & w' & mine' & X' & Eq); auto.
      { intros f k' [->|[]]. apply NC. now left. }
      { split; [|split].
        - intros [->|[]]. apply U1. now left.
        - intros [->|[]]. apply U2. now left.
        - intros d [->|[]]. apply (U3 d). now left. }
      destruct (Eq ops es) as (st & -> & ->). f_equal.
      apply (IH (tr ++ [(o, e)]) s1 q' w' mine' s2 es); auto.
      + eapply inv_step; eauto.
      + intros f k' Y. apply NC. now right.
      + split; [|split].
        * intros Y. apply U1. now right.
        * intros Y. apply U2. now right.
        * intros d Y. apply (U3 d). now right.
  Qed.
End Sim.

Lemma obtained_keys tr ops outs k id : length outs = length ops -> tr = combine ops outs -> obtained tr k id -> In k (exclusive_keys ops).
Proof.
  intros _ -> (d & [H|H]); apply in_combine_l in H; apply in_flat_map; eexists; (split; [exact H|]); now left.
Qed.

(** From the moment an exclusive subscription is handed out, what its user is
    given is what the reference bounded queue gives, for every further history in
    which the user keeps it and which does not stop the client or replace it,
    provided no frame of its topic also matches another exclusively subscribed
    topic. *)
Theorem C38_bounded_fifo :
  forall no_wait ops s outs k depth id s1 more s2 outs2 o,
    sub_run no_wait ops subs_new = Some (s, outs) ->
    (o = SubscribeExclusive k depth \/ o = SubscribeLegacy k depth) ->
    sub_step no_wait o s = Some (s1, ORes (Subscribed id)) ->
    sub_run no_wait more s1 = Some (s2, outs2) ->
    x_undisturbed k id more ->
    no_confusion k (exclusive_keys (ops ++ [o] ++ more)) more ->
    x_results id more outs2 = q_run no_wait depth ([], None) (x_view k id false more).
Proof.
  intros nw ops s outs k d id s1 more s2 outs2 o R Ho St R2 U NC.
  destruct (inv_run _ _ _ _ _ _ inv_new R) as [L I]. cbn [app] in I.
  pose proof (inv_step _ _ _ _ _ _ I St) as I1.
  refine (x_sim nw k id d (exclusive_keys (ops ++ [o] ++ more)) more _ s1 [] None false s2 outs2 I1 _ _ NC U R2).
  2: { unfold exclusive_keys. rewrite !flat_map_app. apply incl_appr, incl_appr, incl_refl. }
  assert (Ek : forall legacy, subscribe_mpsc legacy k d s = (s1, Subscribed id) -> s_blocked s = None ->
    nth_error (s_chans s1) id = Some (MkMpsc d [] true) /\ In (k, id) (exclusive_list s1) /\ s_blocked s1 = None).
  { intros legacy E BN. apply sub_mpsc_cases in E.
    destruct E as [(-> & E)|(_ & _ & Ei & l & -> & E)].
    - destruct E as [(_ & E)|[(_ & _ & E)|(_ & _ & _ & E & _)]]; discriminate.
    - injection Ei as ->. cbn [with_exclusive s_chans exclusive_list s_blocked]. rewrite nth_error_app2, Nat.sub_diag by lia.
      split; [reflexivity|]. split; auto. destruct E as [(old & O' & _ & ->)|(N & ->)];
        [apply replace_has; now apply (in_map fst) in O'|apply in_app_iff; right; now left]. }
  assert (G : nth_error (s_chans s1) id = Some (MkMpsc d [] true) /\ In (k, id) (exclusive_list s1) /\ s_blocked s1 = None).
  { destruct Ho as [->| ->]; cbn [sub_step] in St; unfold blocked in St; destruct (s_blocked s) eqn:BN; try discriminate.
    - destruct (subscribe_mpsc false k d s) as [s1' r] eqn:E. injection St as -> ->. eauto.
    - destruct (subscribe_mpsc true k d s) as [s1' r] eqn:E. injection St as -> ->. eauto. }
  destruct G as (G1 & G2 & G3). constructor; auto.
  - intros k' i X. apply (i_in _ _ I1) in X. apply obtained_app in X. unfold exclusive_keys. rewrite !flat_map_app, !in_app_iff.
    destruct X as [X|(d' & [X|X])].
    + left. eapply obtained_keys; eauto.
    + right. left. injection X as -> _. now left.
    + right. left. injection X as -> _. now left.
  - unfold blockrel. rewrite G3. reflexivity.
Qed.
Print Assumptions C38_bounded_fifo.

(** What the reference queue means.  With zero timeout: what is given is, in
    order, a subsequence of what arrived; nothing is skipped while the queue is
    not full. *)
Lemma q_run_subseq depth es : forall q, subsequence
  (flat_map (fun r => match r with XGot f => [f] | _ => [] end) (q_run true depth (q, None) es))
  (q ++ flat_map (fun e => match e with QArrive f => [f] | _ => [] end) es).
Proof.
  induction es as [|e es IH]; intros q; cbn [q_run flat_map].
  - apply sub_nil.
  - destruct e; cbn [q_step].
    + destruct (length q <? depth); cbn [app flat_map].
      * rewrite <- (app_assoc q [f]) || idtac. specialize (IH (q ++ [f])). rewrite <- app_assoc in IH. exact IH.
      * specialize (IH q). clear - IH. cbn in *. revert IH.
        generalize (flat_map (fun r => match r with XGot f => [f] | _ => [] end) (q_run true depth (q, None) es)).
        intros l. generalize (flat_map (fun e => match e with QArrive f => [f] | _ => [] end) es). intros m.
        revert l. induction q as [|a q IHq]; cbn; intros l H; [now apply sub_skip|].
        inversion H; subst; [apply sub_nil|apply sub_take; auto|apply sub_skip; auto].
    + apply IH.
    + apply IH.
    + destruct q as [|f q]; cbn [app flat_map]; [apply IH|]. apply sub_take. apply IH.
Qed.
Lemma q_run_all depth es : forall q, length q + length (flat_map (fun e => match e with QArrive f => [f] | _ => [] end) es) <= depth ->
  exists rest, q ++ flat_map (fun e => match e with QArrive f => [f] | _ => [] end) es =
    flat_map (fun r => match r with XGot f => [f] | _ => [] end) (q_run true depth (q, None) es) ++ rest.
Proof.
  induction es as [|e es IH]; intros q H; cbn [q_run flat_map] in *.
  - eexists. reflexivity.
  - destruct e; cbn [q_step].
    + cbn [app length] in H. rewrite ?app_length in H. cbn [length] in H.
      replace (length q <? depth) with true by (symmetry; apply Nat.ltb_lt; lia). cbn [app].
      destruct (IH (q ++ [f])) as [rest E]; [rewrite app_length; cbn; lia|]. exists rest. rewrite <- E, <- app_assoc. reflexivity.
    + apply IH; auto.
    + apply IH; auto.
    + destruct q as [|f q]; cbn [app flat_map].
      * apply (IH []); auto.
      * destruct (IH q) as [rest E]; [cbn in H; lia|]. exists rest. cbn in *. now rewrite E.
Qed.

Lemma x_view_arrivals k id ops : forall mine,
  flat_map (fun e => match e with QArrive f => [f] | _ => [] end) (x_view k id mine ops) = arrivals k ops.
Proof.
  induction ops as [|o ops IH]; intros mine; auto. unfold arrivals in *. cbn [flat_map].
  destruct o; cbn [x_view]; auto.
  - destruct (of_topic k f); cbn [flat_map app]; rewrite IH; auto.
  - destruct w; destruct mine; cbn [flat_map app]; auto.
  - destruct (id0 =? id); cbn [flat_map app]; auto.
Qed.

(** In order, never invented; and with at most [depth] messages none is lost. *)
Theorem C38_in_order :
  forall ops s outs k depth id s1 more s2 outs2 o,
    sub_run true ops subs_new = Some (s, outs) ->
    (o = SubscribeExclusive k depth \/ o = SubscribeLegacy k depth) ->
    sub_step true o s = Some (s1, ORes (Subscribed id)) ->
    sub_run true more s1 = Some (s2, outs2) ->
    x_undisturbed k id more ->
    no_confusion k (exclusive_keys (ops ++ [o] ++ more)) more ->
    let given := flat_map (fun r => match r with XGot f => [f] | _ => [] end) (x_results id more outs2) in
    subsequence given (arrivals k more) /\
    (length (arrivals k more) <= depth -> exists rest, arrivals k more = given ++ rest).
Proof.
  intros ops s outs k d id s1 more s2 outs2 o R Ho St R2 U NC given. unfold given.
  rewrite (C38_bounded_fifo _ _ _ _ _ _ _ _ _ _ _ _ R Ho St R2 U NC). split.
  - pose proof (q_run_subseq d (x_view k id false more) []) as H. cbn [app] in H. now rewrite x_view_arrivals in H.
  - intros L. pose proof (q_run_all d (x_view k id false more) []) as H. cbn [app length plus] in H. rewrite x_view_arrivals in H. auto.
Qed.
Print Assumptions C38_in_order.

(** Typed receive: frames that do not decode are skipped, nothing else is. *)
Theorem C38_typed :
  forall M (dec : list N -> option M) s id ch fuel,
    nth_error (s_chans s) id = Some ch -> length (m_queue ch) < fuel ->
    (exists bad f m rest s',
       m_queue ch = bad ++ f :: rest /\ Forall (fun g => dec (f_body g) = None) bad /\ dec (f_body f) = Some m /\
       recv_typed_x M dec fuel id s = (s', TXGot M m) /\ queue_of s' id = rest) \/
    (Forall (fun g => dec (f_body g) = None) (m_queue ch) /\
     snd (recv_typed_x M dec fuel id s) = (if connected id (exclusive_list s) then TXWaiting M else TXEnded M)).
Proof.
  intros M dec s id ch fuel. revert s ch. induction fuel as [|fuel IH]; intros s ch N L; [lia|].
  cbn [recv_typed_x]. unfold recv_exclusive. rewrite N. destruct (m_queue ch) as [|f q] eqn:Q.
  - right. split; [constructor|]. destruct (connected id (exclusive_list s)); reflexivity.
  - cbn [length] in L. destruct (dec (f_body f)) as [m|] eqn:D.
    + left. exists [], f, m, q. eexists. repeat split; auto. unfold queue_of. cbn [with_exclusive s_chans].
      now rewrite (set_nth_some _ _ _ _ _ N).
    + set (s1 := with_exclusive s (exclusive_list s) (set_nth id (MkMpsc (m_cap ch) q (m_rx ch)) (s_chans s))).
      assert (N1 : nth_error (s_chans s1) id = Some (MkMpsc (m_cap ch) q (m_rx ch))) by (cbn; apply (set_nth_some _ _ _ _ _ N)).
      destruct (IH s1 _ N1 ltac:(cbn; lia)) as [(bad & g & m & rest & s' & E & F & Dm & R & Qr)|(F & R)]; cbn [m_queue] in *.
      * left. exists (f :: bad), g, m, rest, s'. rewrite E. repeat split; auto.
      * right. split; [constructor; auto|]. exact R.
Qed.
Print Assumptions C38_typed.

(** ** C39: simulation with the reference reader *)
Lemma m_results_app id a b : forall oa ob, length oa = length a ->
  m_results id (a ++ b) (oa ++ ob) = m_results id a oa ++ m_results id b ob.
Proof.
  induction a as [|o a IH]; intros oa ob L; destruct oa as [|e oa]; try discriminate; [reflexivity|].
  injection L as L. cbn [app m_results]. destruct o; auto. destruct e; auto. destruct (id0 =? id); cbn [app]; now rewrite IH.
Qed.
Section MSim.
  Variable nw : bool.
  Variables (k : Key8) (id c cap : nat) (pre : list RpcFrame) (keys : list Key8).

  Record MSim (s : Subs) (arrived : list RpcFrame) (pos : nat) : Prop := {
    ms_keys : forall k' i, In (k', i) (broadcast_list s) -> In k' keys;
    ms_here : In (k, c) (broadcast_list s);
    ms_chan : nth_error (s_bcasts s) c = Some (MkBcast cap (pre ++ arrived));
    ms_rx : nth_error (s_mrxs s) id = Some (MkMrx c (length pre + pos) true);
    ms_blk : forall c' f rm, s_blocked s = Some (c', f, rm) -> of_topic k f = true -> rm = false }.

  Lemma m_step tr s arr pos o s' out : Inv tr s -> MSim s arr pos ->
    incl (multi_keys [o]) keys -> no_confusion k keys [o] -> m_undisturbed id [o] ->
    sub_step nw o s = Some (s', out) ->
    exists arr' pos', MSim s' arr' pos' /\
      forall ops outs,
        (exists st, r_run cap (arr, pos) (m_view k id (o :: ops)) = st ++ r_run cap (arr', pos') (m_view k id ops) /\
                    m_results id (o :: ops) (out :: outs) = st ++ m_results id ops outs).
  Proof.
    intros I X Kk NC (U1 & U2) H. destruct X as [XK XH XC XR XB].
    assert (Quiet : MSim s' arr pos ->
      (forall ops, m_view k id (o :: ops) = m_view k id ops) ->
      (forall ops outs, m_results id (o :: ops) (out :: outs) = m_results id ops outs) ->
      exists arr' pos', MSim s' arr' pos' /\
        forall ops outs, exists st, r_run cap (arr, pos) (m_view k id (o :: ops)) = st ++ r_run cap (arr', pos') (m_view k id ops) /\
                    m_results id (o :: ops) (out :: outs) = st ++ m_results id ops outs).
    { intros XS V R. exists arr, pos. split; auto. intros ops outs. exists []. rewrite V, R. auto. }
    assert (CLt : c < length (s_bcasts s)) by (apply nth_error_Some; congruence).
    assert (RLt : id < length (s_mrxs s)) by (apply nth_error_Some; congruence).
    assert (HR : has_receiver c (s_mrxs s) = true).
    { unfold has_receiver. apply existsb_exists. eexists. split; [apply nth_error_In with (n := id); exact XR|]. cbn. now rewrite Nat.eqb_refl. }
    assert (BN : blocked s = false -> s_blocked s = None) by (unfold blocked; destruct (s_blocked s); [discriminate|auto]).
    assert (Self : MSim s arr pos) by (constructor; auto).
    assert (Rk : forall b key k' i, In (k', i) (retain b key (broadcast_list s)) -> In k' keys).
    { intros b key k' i Y. destruct b; eauto. unfold retain in Y. apply filter_In in Y. destruct Y. eauto. }
    assert (SubX : forall legacy k0 d s1 r, subscribe_mpsc legacy k0 d s = (s1, r) -> MSim s1 arr pos).
    { intros legacy k0 d s1 r E. apply sub_mpsc_cases in E.
      destruct E as [(-> & _)|(_ & _ & -> & l & -> & _)]; auto. constructor; auto. }
    unfold sub_step in H. destruct o.
    - destruct (blocked s) eqn:Bk; [discriminate|]. destruct (subscribe_mpsc false k0 depth s) as [s1 r] eqn:E. injection H as <- <-.
      apply Quiet; eauto.
    - destruct (blocked s) eqn:Bk; [discriminate|]. destruct (subscribe_mpsc true k0 depth s) as [s1 r] eqn:E. injection H as <- <-.
      apply Quiet; eauto.
    - destruct (blocked s) eqn:Bk; [discriminate|]. specialize (BN eq_refl).
      destruct (subscribe_multi k0 depth s) as [s1 r] eqn:E. injection H as <- <-. apply Quiet; auto.
      unfold subscribe_multi in E. destruct (s_stopped s); [injection E as <- <-; auto|].
      destruct (find _ _) as [[k' c']|].
      + injection E as <- <-. constructor; cbn [broadcast_list s_bcasts s_mrxs s_blocked]; auto. rewrite nth_error_app1; auto.
      + destruct depth; injection E as <- <-; auto.
        constructor; cbn [broadcast_list s_bcasts s_mrxs s_blocked]; auto.
        * intros k' i Y. apply in_app_iff in Y. destruct Y as [Y|[Y|[]]]; eauto. injection Y as <- <-. apply Kk. now left.
        * apply in_app_iff; auto.
        * rewrite nth_error_app1; auto.
        * rewrite nth_error_app1; auto.
    - (* Deliver *)
      destruct (blocked s) eqn:Bk; [discriminate|]. destruct (s_stopped s) eqn:St; [discriminate|]. cbn [orb] in H.
      specialize (BN eq_refl). destruct (deliver nw f s) as [s1 dl] eqn:E. injection H as <- <-.
      rewrite deliver_eq in E. cbv zeta in E. destruct (deliver_mul f s) as [[bs h1] rm] eqn:DM. unfold deliver_mul in DM.
      cbn [m_view m_results].
      assert (Gen : forall arr', nth_error bs c = Some (MkBcast cap (pre ++ arr')) ->
                In (k, c) (retain rm (hdr_key (f_hdr f)) (broadcast_list s)) ->
                (of_topic k f = true -> rm = false) -> MSim s1 arr' pos).
      { intros arr' B1 B2 B3. destruct (find (key_matches (hdr_key (f_hdr f))) (exclusive_list s)) as [[k' c']|].
        - destruct (mpsc_try_send c' f (s_chans s)) as [chans r].
          destruct r; [|destruct nw|]; injection E as <- <-; constructor; cbn [finish broadcast_list s_bcasts s_mrxs s_blocked]; auto;
            try discriminate; try (apply Rk).
          intros c0 f0 rm0 Y. injection Y as <- <- <-. auto.
        - injection E as <- <-. constructor; cbn [finish broadcast_list s_bcasts s_mrxs s_blocked]; auto; try discriminate; apply Rk. }
      destruct (of_topic k f) eqn:OT.
      + assert (F : find (key_matches (hdr_key (f_hdr f))) (broadcast_list s) = Some (k, c)).
        { apply find_unique; auto. intros [k' i'] Y M. rewrite key_matches_topic in M.
          assert (k' = k) by (apply (NC f k'); auto; [now left|eauto]). subst k'.
          f_equal. eapply nodup_fst_in; eauto. apply (i_bkeys _ _ I). }
        rewrite F in DM. unfold bcast_send in DM. rewrite HR, XC in DM. injection DM as <- <- <-. cbn [b_cap b_log] in *.
        exists (arr ++ [f]), pos. split; [|intros ops outs; exists []; auto].
        apply Gen; auto. rewrite set_nth_same by auto. now rewrite app_assoc.
      + exists arr, pos. split; [|intros ops outs; exists []; auto]. apply Gen; [|now apply retain_keep|discriminate].
        destruct (find _ _) as [[k' c']|] eqn:F; [|injection DM as <- <- <-; auto].
        apply find_some in F. destruct F as [F M]. rewrite key_matches_topic in M.
        assert (NE : c' <> c). { intros ->. assert (k' = k) by (eapply nodup_snd_in; eauto; apply (i_bids _ _ I)). subst. congruence. }
        unfold bcast_send in DM. destruct (has_receiver c' (s_mrxs s)); [|injection DM as <- <- <-; auto].
        destruct (nth_error (s_bcasts s) c'); injection DM as <- <- <-; auto. rewrite set_nth_other; auto.
    - (* Unblock *)
      destruct (unblock w s) as [s1|] eqn:E; [|discriminate]. injection H as <- <-. unfold unblock in E.
      destruct (s_blocked s) as [[[c' f] rm]|] eqn:Bk; [|discriminate].
      assert (KP : In (k, c) (retain rm (hdr_key (f_hdr f)) (broadcast_list s))).
      { destruct (of_topic k f) eqn:OT; [|now apply retain_keep]. rewrite (XB _ _ _ eq_refl OT). exact XH. }
      apply Quiet; auto.
      destruct (mpsc_try_send c' f (s_chans s)) as [chans r].
      destruct w, r; try discriminate; injection E as <-; constructor;
        cbn [finish with_exclusive broadcast_list s_bcasts s_mrxs s_blocked]; auto; try discriminate; apply Rk.
    - destruct (x_alive id0 s); [|discriminate]. destruct (recv_exclusive id0 s) as [s1 r] eqn:E. injection H as <- <-.
      apply Quiet; auto. unfold recv_exclusive in E. destruct (nth_error (s_chans s) id0) as [ch|]; [|injection E as <- <-; auto].
      destruct (m_queue ch); [destruct (connected id0 (exclusive_list s)); injection E as <- <-; auto|].
      injection E as <- <-. constructor; auto.
    - (* ReceiveM *)
      destruct (m_alive id0 s) eqn:MA; [|discriminate]. destruct (recv_multi id0 s) as [s1 r] eqn:E. injection H as <- <-.
      unfold recv_multi in E. cbn [m_view m_results]. destruct (Nat.eqb_spec id0 id) as [->|NE].
      + rewrite XR in E. cbn [r_chan r_next r_alive] in E. rewrite XC in E. cbn [b_log b_cap] in E. rewrite app_length in E.
        cbn [r_run r_step].
        destruct (Nat.ltb_spec (length pre + pos) (length pre + length arr - cap)) as [L|L].
        * injection E as <- <-. replace (pos + cap <? length arr) with true by (symmetry; apply Nat.ltb_lt; lia).
          exists arr, (length arr - cap). split.
          -- constructor; cbn [broadcast_list s_bcasts s_mrxs s_blocked]; auto.
             rewrite set_nth_same by auto. do 2 f_equal. lia.
          -- intros ops outs. exists [MLagged (length arr - cap - pos)]. split; auto.
             replace (length pre + length arr - cap - (length pre + pos)) with (length arr - cap - pos) by lia. reflexivity.
        * replace (pos + cap <? length arr) with false by (symmetry; apply Nat.ltb_ge; lia).
          rewrite nth_error_app2 in E by lia. replace (length pre + pos - length pre) with pos in E by lia.
          destruct (nth_error arr pos) as [f|] eqn:N.
          -- injection E as <- <-. exists arr, (S pos). split.
             ++ constructor; cbn [broadcast_list s_bcasts s_mrxs s_blocked]; auto. rewrite set_nth_same by auto. do 2 f_equal. lia.
             ++ intros ops outs. exists [MGot f]. auto.
          -- assert (C : connected c (broadcast_list s) = true) by (apply connected_iff; eauto). rewrite C in E. injection E as <- <-.
             exists arr, pos. split; auto. intros ops outs. exists [MWaiting]. auto.
      + exists arr, pos. split; [|intros ops outs; exists []; auto].
        destruct (nth_error (s_mrxs s) id0) as [rx|]; [|injection E as <- <-; auto].
        destruct (nth_error (s_bcasts s) (r_chan rx)); [|injection E as <- <-; auto].
        destruct (_ <? _); [injection E as <- <-; constructor; cbn [broadcast_list s_bcasts s_mrxs s_blocked]; auto; rewrite set_nth_other; auto|].
        destruct (nth_error _ (r_next rx)); [injection E as <- <-; constructor; cbn [broadcast_list s_bcasts s_mrxs s_blocked]; auto; rewrite set_nth_other; auto|].
        destruct (connected (r_chan rx) (broadcast_list s)); injection E as <- <-; auto.
    - destruct (x_alive id0 s); [|discriminate]. injection H as <- <-. apply Quiet; auto.
      unfold drop_exclusive. destruct (nth_error (s_chans s) id0); auto. constructor; auto.
    - destruct (m_alive id0 s); [|discriminate]. injection H as <- <-. apply Quiet; auto.
      assert (id0 <> id) by (intros ->; apply U2; now left). unfold drop_multi.
      destruct (nth_error (s_mrxs s) id0); auto. constructor; cbn [broadcast_list s_bcasts s_mrxs s_blocked]; auto. rewrite set_nth_other; auto.
    - exfalso. apply U1. now left.
  Qed.

  Lemma m_sim_state ops : forall tr s arr pos s' outs, Inv tr s -> MSim s arr pos ->
    incl (multi_keys ops) keys -> no_confusion k keys ops -> m_undisturbed id ops ->
    sub_run nw ops s = Some (s', outs) ->
    exists arr' pos', MSim s' arr' pos' /\
      forall ops', r_run cap (arr, pos) (m_view k id (ops ++ ops')) =
                   m_results id ops outs ++ r_run cap (arr', pos') (m_view k id ops').
  Proof.
    induction ops as [|o ops IH]; intros tr s arr pos s' outs I X Kk NC (U1 & U2) H; cbn [sub_run] in H.
    - injection H as <- <-. exists arr, pos. auto.
    - destruct (sub_step nw o s) as [[s1 e]|] eqn:E1; [|discriminate].
      destruct (sub_run nw ops s1) as [[s2 es]|] eqn:E2; [|discriminate]. injection H as <- <-.
      change (multi_keys (o :: ops)) with (flat_map (fun o => match o with SubscribeMulti k _ => [k] | _ => [] end) ([o] ++ ops)) in Kk.
      rewrite flat_map_app in Kk. apply incl_app_inv in Kk. destruct Kk as [K1 K2].
      destruct (m_step tr s arr pos o s1 e I X K1) as (arr1 & pos1 & X' & Eq); auto.
      { intros f k' [->|[]]. apply NC. now left. }
      { split.
        - intros [->|[]]. apply U1. now left.
        - intros [->|[]]. apply U2. now left. }
      destruct (IH (tr ++ [(o, e)]) s1 arr1 pos1 s2 es) as (arr' & pos' & X2 & G); auto.
      { eapply inv_step; eauto. }
      { intros f k' Y. apply NC. now right. }
      { split.
        - intros Y. apply U1. now right.
        - intros Y. apply U2. now right. }
      exists arr', pos'. split; auto. intros ops'. cbn [app].
      destruct (Eq (ops ++ ops') es) as (st & -> & E3). rewrite G.
      destruct (Eq ops es) as (st2 & _ & E4). rewrite E4.
      (* both prefixes are what this step showed the user *)
      assert (st = st2).
      { pose proof (m_results_app id [o] (ops ++ ops') [e] es eq_refl) as Y1.
        pose proof (m_results_app id [o] ops [e] es eq_refl) as Y2. cbn [app] in Y1, Y2.
        rewrite Y1 in E3. rewrite Y2 in E4. apply app_inv_tail in E3. apply app_inv_tail in E4. congruence. }
      subst st2. now rewrite app_assoc.
  Qed.

  Lemma m_sim ops : forall tr s arr pos s' outs, Inv tr s -> MSim s arr pos ->
    incl (multi_keys ops) keys -> no_confusion k keys ops -> m_undisturbed id ops ->
    sub_run nw ops s = Some (s', outs) ->
    m_results id ops outs = r_run cap (arr, pos) (m_view k id ops).
  Proof.
    intros tr s arr pos s' outs I X Kk NC U H. destruct (m_sim_state ops tr s arr pos s' outs I X Kk NC U H) as (a & p & _ & G).
    specialize (G []). rewrite app_nil_r in G. rewrite G. cbn. now rewrite app_nil_r.
  Qed.
End MSim.

Lemma pow2_from_ge fuel : forall p n, 0 < p -> n <= p + fuel -> n <= pow2_from fuel p n.
Proof.
  induction fuel as [|f IH]; intros p n P H; cbn; [lia|]. destruct (Nat.leb_spec n p); [lia|]. apply IH; lia.
Qed.
Lemma pow2_from_lt fuel : forall p n, 0 < p -> p < 2 * n -> pow2_from fuel p n < 2 * n.
Proof.
  induction fuel as [|f IH]; intros p n P H; cbn; [lia|]. destruct (Nat.leb_spec n p); [lia|]. apply IH; lia.
Qed.
Lemma next_pow2_bounds n : 0 < n -> n <= next_power_of_two n < 2 * n.
Proof. intros H. unfold next_power_of_two. split; [apply pow2_from_ge; lia|apply pow2_from_lt; lia]. Qed.

(** From the moment a broadcast subscription is handed out, what its user is given
    is what the reference reader gives, whatever the other subscribers do.  If it
    opened the channel, its capacity is at least the depth asked for (and less
    than twice that). *)
Theorem C39_reader :
  forall no_wait ops s outs k depth id s1,
    sub_run no_wait ops subs_new = Some (s, outs) ->
    sub_step no_wait (SubscribeMulti k depth) s = Some (s1, ORes (Subscribed id)) ->
    exists cap,
      ((forall id', ~ obtained_multi (combine ops outs) k id') -> depth <= cap < 2 * depth) /\
      forall more s2 outs2,
        sub_run no_wait more s1 = Some (s2, outs2) ->
        m_undisturbed id more ->
        no_confusion k (multi_keys (ops ++ [SubscribeMulti k depth] ++ more)) more ->
        m_results id more outs2 = r_run cap ([], 0) (m_view k id more).
Proof.
  intros nw ops s outs k d id s1 R St.
  destruct (inv_run _ _ _ _ _ _ inv_new R) as [L I]. cbn [app] in I.
  pose proof (inv_step _ _ _ _ _ _ I St) as I1.
  assert (Kx : forall more k' c', In (k', c') (broadcast_list s1) -> In k' (multi_keys (ops ++ [SubscribeMulti k d] ++ more))).
  { intros more k' c' X. apply (i_bk _ _ I1) in X. destruct X as [i X]. apply obtained_multi_app in X.
    unfold multi_keys. rewrite !flat_map_app, !in_app_iff. destruct X as [(d' & X)|(d' & X)].
    - left. apply in_combine_l in X. apply in_flat_map. eexists. split; [exact X|]. now left.
    - right. left. injection X as <- _ _. now left. }
  assert (Inc : forall more, incl (multi_keys more) (multi_keys (ops ++ [SubscribeMulti k d] ++ more))).
  { intros more. unfold multi_keys. rewrite !flat_map_app. apply incl_appr, incl_appr, incl_refl. }
  cbn [sub_step] in St. unfold blocked in St. destruct (s_blocked s) eqn:BN; [discriminate|].
  destruct (subscribe_multi k d s) as [s1' r] eqn:E. injection St as -> ->.
  unfold subscribe_multi in E. destruct (s_stopped s); [discriminate|].
  destruct (find _ _) as [[k' c]|] eqn:F.
  - apply find_key in F. cbn in F. destruct F as [-> F]. injection E as <- <-.
    destruct (nth_error (s_bcasts s) c) as [b|] eqn:Nb.
    2: { apply nth_error_None in Nb. apply (i_blt _ _ I) in F. lia. }
    exists (b_cap b). split.
    + intros No. exfalso. destruct (i_bk _ _ I _ _ F) as [i Hi]. apply (No i Hi).
    + intros more s2 outs2 R2 U NC.
      refine (m_sim nw k _ c (b_cap b) (b_log b) _ more _ _ [] 0 s2 outs2 I1 _ (Inc more) NC U R2).
      constructor; cbn [broadcast_list s_bcasts s_mrxs s_blocked]; auto.
      * apply Kx.
      * rewrite app_nil_r. destruct b; auto.
      * rewrite nth_error_app2, Nat.sub_diag by lia. cbn. do 2 f_equal. lia.
      * intros. congruence.
  - destruct d as [|d]; [discriminate|]. injection E as <- <-. exists (next_power_of_two (S d)). split.
    + intros _. apply next_pow2_bounds. lia.
    + intros more s2 outs2 R2 U NC.
      refine (m_sim nw k _ (length (s_bcasts s)) (next_power_of_two (S d)) [] _ more _ _ [] 0 s2 outs2 I1 _ (Inc more) NC U R2).
      constructor; cbn [broadcast_list s_bcasts s_mrxs s_blocked]; auto.
      * apply Kx.
      * apply in_app_iff. right. now left.
      * rewrite nth_error_app2, Nat.sub_diag by lia. reflexivity.
      * rewrite nth_error_app2, Nat.sub_diag by lia. reflexivity.
      * intros. congruence.
Qed.
Print Assumptions C39_reader.

(** Accounting for the reference reader. *)
Lemma skipn_nth A (l : list A) n x : nth_error l n = Some x -> skipn n l = x :: skipn (S n) l.
Proof. revert n. induction l as [|a l IH]; intros [|n] H; try discriminate; [injection H as ->; reflexivity|]. cbn in *. now apply IH. Qed.
Lemma subseq_skip A (a l : list A) n : subsequence a (skipn n l) -> subsequence a l.
Proof. revert n. induction l as [|x l IH]; intros [|n] H; auto. apply sub_skip. apply (IH n). exact H. Qed.
Lemma subseq_skip_le A (a l : list A) n m : n <= m -> subsequence a (skipn m l) -> subsequence a (skipn n l).
Proof.
  revert n m. induction l as [|x l IH]; intros n m H X; [destruct n, m; exact X|].
  destruct n; [now apply subseq_skip in X|]. destruct m; [lia|]. cbn in *. apply (IH n m); [lia|exact X].
Qed.

Definition m_arrivals (es : list REv) : list RpcFrame := flat_map (fun e => match e with RArrive f => [f] | _ => [] end) es.

Lemma r_run_account cap es : forall arr pos, pos <= length arr ->
  exists pos', pos' <= length (arr ++ m_arrivals es) /\
    length (got_frames (r_run cap (arr, pos) es)) + missed (r_run cap (arr, pos) es) + pos = pos' /\
    subsequence (got_frames (r_run cap (arr, pos) es)) (skipn pos (arr ++ m_arrivals es)) /\
    (missed (r_run cap (arr, pos) es) = 0 ->
       firstn (pos' - pos) (skipn pos (arr ++ m_arrivals es)) = got_frames (r_run cap (arr, pos) es)) /\
    (forall rs, r_run cap (arr, pos) es = rs ++ [MWaiting] -> (forall e es', es = es' ++ [e] -> e = RRecv) ->
       pos' = length (arr ++ m_arrivals es)).
Proof.
  induction es as [|e es IH]; intros arr pos P.
  - exists pos. cbn. rewrite app_nil_r. repeat split; auto.
    + apply sub_nil.
    + rewrite Nat.sub_diag. reflexivity.
    + intros rs E. destruct rs; discriminate.
  - assert (Last : (forall e0 es', e :: es = es' ++ [e0] -> e0 = RRecv) -> es <> [] -> forall e0 es', es = es' ++ [e0] -> e0 = RRecv).
    { intros H _ e0 es' ->. apply (H e0 (e :: es')). reflexivity. }
    destruct e as [f|]; cbn [r_run r_step m_arrivals flat_map].
    + destruct (IH (arr ++ [f]) pos) as (p & B & A & S & F & W); [rewrite app_length; lia|].
      change (flat_map _ es) with (m_arrivals es). rewrite <- app_assoc in *. cbn [app] in *.
      exists p. repeat split; auto. intros rs E H. destruct es as [|e' es'].
      * cbn in E. destruct rs; discriminate.
      * apply (W rs E). apply Last; auto. discriminate.
    + change (flat_map _ es) with (m_arrivals es).
      destruct (Nat.ltb_spec (pos + cap) (length arr)) as [L|L]; cbn [app].
      * destruct (IH arr (length arr - cap)) as (p & B & A & S & F & W); [lia|].
        exists p. unfold got_frames, missed in *. cbn [flat_map map list_sum app] in *.
        change (list_sum (length arr - cap - pos :: ?l)) with (length arr - cap - pos + list_sum l) in *.
        repeat split; auto.
        -- cbn [list_sum fold_right] in *. unfold list_sum in *. lia.
        -- eapply subseq_skip_le; [|exact S]. lia.
        -- cbn [fold_right]. intros X. exfalso. unfold list_sum in X. cbn in X. lia.
        -- intros rs E H. destruct rs as [|r rs]; [discriminate|]. injection E as <- E.
           destruct es as [|e' es']; [cbn in E; destruct rs; discriminate|]. apply (W rs E). apply Last; auto; discriminate.
      * destruct (nth_error arr pos) as [f|] eqn:N.
        -- assert (pos < length arr) by (apply nth_error_Some; congruence).
           destruct (IH arr (S pos)) as (p & B & A & S & F & W); [lia|].
           exists p. unfold got_frames, missed in *. cbn [flat_map map app list_sum fold_right length] in *. unfold list_sum in *.
           cbn [fold_right] in *.
           assert (SK : skipn pos (arr ++ m_arrivals es) = f :: skipn (Datatypes.S pos) (arr ++ m_arrivals es)).
           { apply skipn_nth. rewrite nth_error_app1; auto. }
           repeat split; auto; try lia.
           ++ rewrite SK. apply sub_take. exact S.
           ++ intros M. rewrite SK. replace (p - pos) with (Datatypes.S (p - Datatypes.S pos)) by lia. cbn. f_equal. apply F. exact M.
           ++ intros rs E H0. destruct rs as [|r rs]; [discriminate|]. injection E as <- E.
              destruct es as [|e' es']; [cbn in E; destruct rs; discriminate|]. apply (W rs E). apply Last; auto; discriminate.
        -- destruct (IH arr pos P) as (p & B & A & S & F & W). exists p.
           unfold got_frames, missed in *. cbn [flat_map map app list_sum fold_right] in *. unfold list_sum in *. cbn [fold_right plus] in *.
           repeat split; auto. intros rs E H.
           destruct es as [|e' es'].
           ++ cbn in *. rewrite app_nil_r in *. apply nth_error_None in N. lia.
           ++ destruct rs as [|r rs].
              ** injection E as E. destruct e' as [f|]; cbn [r_run r_step] in E; [|exfalso; destruct (pos + cap <? length arr); [discriminate|destruct (nth_error arr pos); discriminate]].
                 assert (Z : exists l x, RArrive f :: es' = l ++ [x]).
                 { destruct (exists_last (l := RArrive f :: es')) as (l & x & E2); [discriminate|]. eauto. }
                 destruct Z as (l & x & Z). pose proof (Last H ltac:(discriminate) x l Z) as ->.
                 exfalso. clear - E Z. revert E Z. generalize (arr ++ [f]). intros a.
                 assert (G : forall es a p, r_run cap (a, p) es = [] -> ~ In RRecv es).
                 { induction es as [|[g|] es IH]; intros a' p' E X; [destruct X| |].
                   - cbn in E. destruct X as [X|X]; [discriminate|]. eapply IH; eauto.
                   - cbn [r_run r_step] in E. destruct (p' + cap <? length a'); [discriminate|]. destruct (nth_error a' p'); discriminate. }
                 intros E Z. apply (G _ _ _ E). destruct l as [|y l]; [discriminate|]. injection Z as <- ->. apply in_app_iff. right. now left.
              ** injection E as <- E. apply (W rs E). apply Last; auto; discriminate.
Qed.
