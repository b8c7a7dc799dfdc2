(** Lemmas about what flows through the system. *)
From Coq Require Import NArith List Bool Arith Lia Permutation.
From Verif Require Import KeyModel HeaderModel KeySpec SubModel SubSpec SubProof ClientModel ClientSpec ClientProof ClientHist ClientMore UsbSpec FlowBase SubFlow FlowSpec.
Import ListNotations.

Lemma combine_snoc {A B} (a : list A) (b : list B) x y : length a = length b -> combine (a ++ [x]) (b ++ [y]) = combine a b ++ [(x, y)].
Proof. revert b. induction a; destruct b; cbn; intros; try discriminate; auto. rewrite IHa by lia. reflexivity. Qed.

Section Client.
  Variable cfg : Config.
  Notation step := (step cfg).
  Notation run := (run cfg).

  Lemma run_length ls : forall c c' es, run ls c = Some (c', es) -> length es = length ls.
  Proof.
    induction ls as [|l ls IH]; intros c c' es H; cbn [ClientModel.run] in H. { injection H as <- <-. auto. }
    destruct (step l c) as [[c1 e]|]; [|discriminate]. destruct (run ls c1) as [[c2 es']|] eqn:R; [|discriminate].
    injection H as <- <-. cbn. f_equal. eauto.
  Qed.

  Definition sub_call (x : Label * list Ev) : SubSpec.Trace := match x with (LSub o, [EvSub out]) => [(o, out)] | _ => [] end.
  Definition sub_calls (cl : list Label) (es : list (list Ev)) : SubSpec.Trace := flat_map sub_call (combine cl es).

  Lemma flow_step_other l c c' e : step l c = Some (c', e) ->
    match l with LRecv _ | LUnblock _ | LInFail | LInEnd | LPurge | LSub _ => True | _ => c_subs c' = c_subs c end.
  Proof.
    intros H. destruct l; auto; cbn [ClientModel.step] in H;
      repeat match type of H with context [match ?x with _ => _ end] => destruct x eqn:?; try discriminate end;
      try injection H as <- <-; try reflexivity; unfold adopt; try (destruct (negb _); reflexivity).
  Qed.

  Lemma reach_flow ls c es : run ls client_new = Some (c, es) ->
    Inv (sub_calls ls es) (c_subs c) /\ Fl (sub_calls ls es) (arrived ls) (c_subs c).
  Proof.
    intros R. pose proof (run_length _ _ _ _ R) as L. revert L. revert ls c es R.
    apply (run_ind cfg (fun ls c es => length es = length ls -> Inv (sub_calls ls es) (c_subs c) /\ Fl (sub_calls ls es) (arrived ls) (c_subs c))).
    { intros _. split; [apply inv_new|apply fl_new]. }
    intros ls c es l c' e R IH Hs L. pose proof (run_length _ _ _ _ R) as L0. destruct (IH L0) as [I F].
    unfold sub_calls. rewrite combine_snoc, flat_map_app by auto. fold (sub_calls ls es).
    replace (flat_map sub_call [(l, e)]) with (sub_call (l, e)) by (cbn; now rewrite app_nil_r). rewrite arrived_app.
    pose proof (flow_step_other _ _ _ _ Hs) as O.
    destruct l; try (rewrite O; cbn [sub_call]; rewrite app_nil_r; cbn; rewrite app_nil_r; auto; fail).
    - (* a frame arrives *)
      cbn [sub_call]. rewrite app_nil_r. cbn [arrived flat_map]. rewrite app_nil_r. unfold frame_of.
      cbn [ClientModel.step] in Hs. destruct (c_offer c); [discriminate|].
      destruct (c_in_alive c); [|discriminate]. cbn [negb orb] in Hs. destruct (blocked (c_subs c)) eqn:B; [discriminate|].
      destruct (take_from_slice bytes) as [[[hdr body]|]|]; [| |discriminate].
      2:{ injection Hs as <- <-. rewrite app_nil_r. auto. }
      cbn [sub_step] in Hs. rewrite B in Hs. destruct (s_stopped (c_subs c)) eqn:S; [discriminate|]. cbn [orb] in Hs.
      destruct (deliver (cfg_no_wait cfg) _ (c_subs c)) as [s1 d] eqn:D.
      assert (E : c_subs c' = s1). { destruct d; injection Hs as <- <-; reflexivity. } rewrite E.
      assert (B' : s_blocked (c_subs c) = None) by (unfold blocked in B; destruct (s_blocked (c_subs c)); [discriminate|auto]).
      split; [eapply inv_deliver; eauto|eapply fl_deliver; eauto].
    - cbn [sub_call arrived flat_map]. rewrite !app_nil_r. cbn [ClientModel.step sub_step] in Hs.
      destruct (unblock w (c_subs c)) as [s1|] eqn:U; [|discriminate]. destruct (c_in_alive c); [|discriminate]. injection Hs as <- <-.
      cbn [set_in c_subs]. split; [eapply inv_unblock; eauto|eapply fl_unblock; eauto].
    - cbn [sub_call arrived flat_map]. rewrite !app_nil_r. cbn [ClientModel.step] in Hs. destruct (c_offer c); [discriminate|].
      destruct (negb (c_in_alive c) || blocked (c_subs c))%bool; [discriminate|]. injection Hs as <- <-. split.
      + apply (inv_shrink _ (c_subs c)); auto; shrink_side I; intros S; apply (i_stop _ _ I) in S; tauto.
      + eapply fl_shrink; eauto; try reflexivity. apply incl_refl.
    - cbn [sub_call arrived flat_map]. rewrite !app_nil_r. cbn [ClientModel.step] in Hs.
      destruct (c_stopped c && c_in_alive c)%bool; [|discriminate]. injection Hs as <- <-. split.
      + apply (inv_shrink _ (c_subs c)); auto; shrink_side I; intros S; apply (i_stop _ _ I) in S; tauto.
      + eapply fl_shrink; eauto; try reflexivity. apply incl_refl.
    - cbn [sub_call arrived flat_map]. rewrite !app_nil_r. cbn [ClientModel.step] in Hs. destruct (c_in_alive c); [discriminate|]. injection Hs as <- <-. split.
      + cbn [set_in c_subs]. apply (inv_shrink _ (c_subs c)); auto; shrink_side I; cbn; try (exists (fun _ => false); clear; induction (exclusive_list (c_subs c)); auto; fail);
        try (exists (fun _ => false); clear; induction (broadcast_list (c_subs c)); auto; fail); auto.
      + eapply fl_shrink; eauto; try reflexivity. intros x [].
    - cbn [ClientModel.step] in Hs. destruct (user_op o) eqn:U; [|discriminate].
      destruct (sub_step (cfg_no_wait cfg) o (c_subs c)) as [[s1 out]|] eqn:S; [|discriminate]. injection Hs as <- <-.
      cbn [sub_call set_in c_subs]. destruct (fl_step _ _ _ _ _ _ _ I F S) as [I' F']. split; auto.
      destruct o; try discriminate; exact F'.
  Qed.

  Lemma sub_calls_obtained cl es k id : subscribed cl es k id -> obtained (sub_calls cl es) k id.
  Proof.
    intros (d & H). exists d. unfold sub_calls. rewrite !in_flat_map.
    destruct H as [H|H]; [left|right]; eexists; (split; [exact H|left; reflexivity]).
  Qed.
  Lemma sub_calls_obtained_multi cl es k id : subscribed_multi cl es k id -> obtained_multi (sub_calls cl es) k id.
  Proof. intros (d & H). exists d. unfold sub_calls. rewrite in_flat_map. eexists; (split; [exact H|left; reflexivity]). Qed.
  Lemma flat_map_flat_map {A B C} (g : B -> list C) (h : A -> list B) l : flat_map g (flat_map h l) = flat_map (fun x => flat_map g (h x)) l.
  Proof. induction l; cbn; auto. rewrite flat_map_app, IHl. reflexivity. Qed.
  Lemma sub_calls_given cl es id : x_given id (sub_calls cl es) = given cl es id.
  Proof.
    unfold x_given, sub_calls, given. rewrite flat_map_flat_map. apply flat_map_ext. intros [l e].
    destruct l; auto. destruct e as [|[] []]; auto; destruct o; auto; cbn; rewrite ?app_nil_r; auto; destruct o0; auto; destruct r; auto.
  Qed.
  Lemma sub_calls_given_multi cl es id : m_given id (sub_calls cl es) = given_multi cl es id.
  Proof.
    unfold m_given, sub_calls, given_multi. rewrite flat_map_flat_map. apply flat_map_ext. intros [l e].
    destruct l; auto. destruct e as [|[] []]; auto; destruct o; auto; cbn; rewrite ?app_nil_r; auto; destruct o0; auto; destruct r; auto.
  Qed.

  (** What a subscription gives is a subsequence of what arrived for its topic. *)
  Lemma given_arrived ls c es k id : run ls client_new = Some (c, es) -> subscribed ls es k id ->
    subsequence (given ls es id) (filter (of_topic k) (arrived ls)).
  Proof.
    intros R Hs. destruct (reach_flow _ _ _ R) as [I F]. apply sub_calls_obtained in Hs.
    pose proof (i_lt _ _ I _ _ Hs) as L. destruct (nth_error (s_chans (c_subs c)) id) as [ch|] eqn:N.
    2:{ apply nth_error_None in N. lia. }
    pose proof (fl_x _ _ _ F _ _ _ Hs N) as G. rewrite sub_calls_given in G.
    eapply subseq_trans; [exact G|]. rewrite <- (app_nil_r (given ls es id)) at 1. apply subseq_app; [apply subseq_refl|constructor].
  Qed.
  Lemma given_multi_arrived ls c es k id : run ls client_new = Some (c, es) -> subscribed_multi ls es k id ->
    subsequence (given_multi ls es id) (filter (of_topic k) (arrived ls)).
  Proof.
    intros R Hs. destruct (reach_flow _ _ _ R) as [I F]. apply sub_calls_obtained_multi in Hs.
    pose proof (i_mlt _ _ I _ _ Hs) as L. destruct (nth_error (s_mrxs (c_subs c)) id) as [r|] eqn:N.
    2:{ apply nth_error_None in N. lia. }
    pose proof (i_rlt _ _ I _ (nth_error_In _ _ N)) as L2. destruct (nth_error (s_bcasts (c_subs c)) (r_chan r)) as [b|] eqn:Nb.
    2:{ apply nth_error_None in Nb. lia. }
    pose proof (fl_m _ _ _ F _ _ _ _ Hs N Nb) as G. rewrite sub_calls_given_multi in G.
    eapply subseq_trans; [exact G|]. rewrite <- (app_nil_r (given_multi ls es id)) at 1. apply subseq_app; [apply subseq_refl|constructor].
  Qed.
End Client.
