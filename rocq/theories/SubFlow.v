(** What the user of a subscription is given, in any history: a subsequence of what
    arrived for its topic. *)
From Coq Require Import NArith List Bool Arith Lia Permutation.
From Verif Require Import KeyModel HeaderModel KeySpec SubModel SubSpec SubProof UsbSpec FlowBase.
Import ListNotations.

Definition x_given (id : nat) (tr : Trace) : list RpcFrame :=
  flat_map (fun e => match e with (ReceiveX i, OX (XGot f)) => if i =? id then [f] else [] | _ => [] end) tr.
Definition m_given (id : nat) (tr : Trace) : list RpcFrame :=
  flat_map (fun e => match e with (ReceiveM i, OM (MGot f)) => if i =? id then [f] else [] | _ => [] end) tr.
Definition t_arr (k : Key8) (arr : list RpcFrame) : list RpcFrame := filter (of_topic k) arr.
Definition blk (id : nat) (s : Subs) : list RpcFrame :=
  match s_blocked s with Some (c, f, _) => if c =? id then [f] else [] | None => [] end.

Record Fl (tr : Trace) (arr : list RpcFrame) (s : Subs) : Prop := {
  fl_x : forall k id ch, obtained tr k id -> nth_error (s_chans s) id = Some ch ->
    subsequence (x_given id tr ++ m_queue ch ++ blk id s) (t_arr k arr);
  fl_xn : forall id, length (s_chans s) <= id -> x_given id tr = [];
  fl_m : forall k id r b, obtained_multi tr k id -> nth_error (s_mrxs s) id = Some r -> nth_error (s_bcasts s) (r_chan r) = Some b ->
    subsequence (m_given id tr ++ skipn (r_next r) (b_log b)) (t_arr k arr);
  fl_mn : forall id, length (s_mrxs s) <= id -> m_given id tr = [];
  fl_k : forall k k' id r, obtained_multi tr k id -> nth_error (s_mrxs s) id = Some r -> In (k', r_chan r) (broadcast_list s) -> k' = k
}.

Lemma fl_new : Fl [] [] subs_new.
Proof.
  split; cbn; auto; intros; try (destruct id; discriminate);
    unfold obtained, obtained_multi in *; repeat match goal with H : exists _, _ |- _ => destruct H end; tauto.
Qed.

Lemma x_given_snoc id tr e : x_given id (tr ++ [e]) = x_given id tr ++ match e with (ReceiveX i, OX (XGot f)) => if i =? id then [f] else [] | _ => [] end.
Proof. unfold x_given. rewrite flat_map_app. cbn. now rewrite app_nil_r. Qed.
Lemma m_given_snoc id tr e : m_given id (tr ++ [e]) = m_given id tr ++ match e with (ReceiveM i, OM (MGot f)) => if i =? id then [f] else [] | _ => [] end.
Proof. unfold m_given. rewrite flat_map_app. cbn. now rewrite app_nil_r. Qed.
Lemma t_arr_snoc k arr f : t_arr k (arr ++ [f]) = t_arr k arr ++ if of_topic k f then [f] else [].
Proof. unfold t_arr. rewrite filter_app. cbn. destruct (of_topic k f); reflexivity. Qed.
Lemma subseq_weak {A} (a b x : list A) : subsequence a b -> subsequence a (b ++ x).
Proof. intros H. rewrite <- (app_nil_r a). apply subseq_app; auto. constructor. Qed.
Lemma subseq_skipn {A} n (l : list A) : subsequence (skipn n l) l.
Proof. revert n. induction l; intros [|n]; cbn; try constructor; auto. apply subseq_refl. Qed.
Lemma skipn_skipn_le {A} n m (l : list A) : n <= m -> subsequence (skipn m l) (skipn n l).
Proof.
  intros H. replace m with ((m - n) + n) by lia. generalize (m - n). clear. intros d.
  revert l. induction n; intros l. { rewrite Nat.add_0_r. apply subseq_skipn. }
  rewrite Nat.add_succ_r. destruct l; cbn; [constructor|apply IHn].
Qed.
Lemma nth_snoc_cases {A} (l : list A) x i y : nth_error (l ++ [x]) i = Some y ->
  (nth_error l i = Some y) \/ (i = length l /\ y = x).
Proof.
  intros H. destruct (Nat.lt_ge_cases i (length l)). { rewrite nth_error_app1 in H; auto. }
  rewrite nth_error_app2 in H by auto. destruct (i - length l) as [|j] eqn:E; cbn in H.
  - injection H as <-. right. split; [lia|auto].
  - destruct j; discriminate.
Qed.

(** A history step that is no subscription and gives nothing, and leaves the channels
    as they are. *)
Definition silent (e : SubOp * SubOut) : Prop :=
  match e with
  | (SubscribeExclusive _ _, ORes (Subscribed _)) | (SubscribeLegacy _ _, ORes (Subscribed _)) | (SubscribeMulti _ _, ORes (Subscribed _)) => False
  | (ReceiveX _, OX (XGot _)) | (ReceiveM _, OM (MGot _)) => False
  | _ => True
  end.
Lemma silent_obt tr e k id : silent e -> obtained (tr ++ [e]) k id -> obtained tr k id.
Proof. intros H X. apply obtained_app in X. destruct X as [X|(d & [X|X])]; auto; subst e; destruct H. Qed.
Lemma silent_obtm tr e k id : silent e -> obtained_multi (tr ++ [e]) k id -> obtained_multi tr k id.
Proof. intros H X. apply obtained_multi_app in X. destruct X as [X|(d & X)]; auto; subst e; destruct H. Qed.
Lemma silent_x id tr e : silent e -> x_given id (tr ++ [e]) = x_given id tr.
Proof. intros H. rewrite x_given_snoc. destruct e as [[] []]; cbn in *; try apply app_nil_r. destruct r; try apply app_nil_r. destruct H. Qed.
Lemma silent_m id tr e : silent e -> m_given id (tr ++ [e]) = m_given id tr.
Proof. intros H. rewrite m_given_snoc. destruct e as [[] []]; cbn in *; try apply app_nil_r. destruct r; try apply app_nil_r. destruct H. Qed.

Lemma fl_silent tr arr s e : Fl tr arr s -> silent e -> Fl (tr ++ [e]) arr s.
Proof.
  intros [F1 F2 F3 F4 F5] H. split.
  - intros k id ch X Hn. rewrite silent_x by auto. eapply F1; eauto. eapply silent_obt; eauto.
  - intros id L. rewrite silent_x by auto. auto.
  - intros k id r b X Hn Hb. rewrite silent_m by auto. eapply F3; eauto. eapply silent_obtm; eauto.
  - intros id L. rewrite silent_m by auto. auto.
  - intros k k' id r X. eapply F5. eapply silent_obtm; eauto.
Qed.

(** Entries are removed, the wait is given up, the worker stops. *)
Lemma fl_shrink tr arr s s' : Fl tr arr s -> s_chans s' = s_chans s -> s_bcasts s' = s_bcasts s -> s_mrxs s' = s_mrxs s ->
  incl (broadcast_list s') (broadcast_list s) -> (s_blocked s' = s_blocked s \/ s_blocked s' = None) -> Fl tr arr s'.
Proof.
  intros [F1 F2 F3 F4 F5] E1 E2 E3 Inc B. split; rewrite ?E1, ?E2, ?E3; auto.
  - intros k id ch X Hn. eapply subseq_trans; [eapply F1; eauto|]. apply subseq_app; [apply subseq_refl|]. apply subseq_app; [apply subseq_refl|].
    unfold blk. destruct B as [->| ->]; [apply subseq_refl|constructor].
  - intros k k' id r X Hn Hi. eapply F5; eauto.
Qed.

Lemma retain_incl b key l : incl (retain b key l) l.
Proof. destruct b; cbn; [intros x Hx; apply filter_In in Hx; tauto|apply incl_refl]. Qed.

Section Steps.
  Variable nw : bool.

  Lemma fl_deliver tr arr s f s' d : Inv tr s -> Fl tr arr s -> s_blocked s = None -> deliver nw f s = (s', d) -> Fl tr (arr ++ [f]) s'.
  Proof.
    intros I [F1 F2 F3 F4 F5] B H. rewrite deliver_eq in H. cbv zeta in H.
    destruct (deliver_mul f s) as [[bs h1] rm] eqn:DM.
    (* the broadcast part *)
    assert (M : length bs = length (s_bcasts s) /\
      forall k id r b, obtained_multi tr k id -> nth_error (s_mrxs s) id = Some r -> nth_error bs (r_chan r) = Some b ->
        subsequence (m_given id tr ++ skipn (r_next r) (b_log b)) (t_arr k (arr ++ [f]))).
    { split; [apply (deliver_mul_spec _ _ _ _ _ DM)|]. intros k id r b X Hr Hb. rewrite t_arr_snoc. unfold deliver_mul in DM.
      destruct (find _ (broadcast_list s)) as [[k' c]|] eqn:Fd.
      2:{ injection DM as <- <- <-. apply subseq_weak. eapply F3; eauto. }
      destruct (bcast_send c f s) as [bs' failed] eqn:Bs. injection DM as <- <- <-.
      apply find_some in Fd as [Hi Hk]. unfold key_matches in Hk. cbn [fst] in Hk.
      unfold bcast_send in Bs. destruct (has_receiver c (s_mrxs s)); [|injection Bs as <- <-; apply subseq_weak; eapply F3; eauto].
      destruct (nth_error (s_bcasts s) c) as [b0|] eqn:N; injection Bs as <- <-; [|apply subseq_weak; eapply F3; eauto].
      destruct (Nat.eq_dec c (r_chan r)) as [->|Ne].
      - rewrite (set_nth_some _ _ _ _ _ N) in Hb. injection Hb as <-. cbn [b_log].
        rewrite (F5 _ _ _ _ X Hr Hi) in Hk. unfold of_topic. rewrite Hk. rewrite skipn_app, app_assoc.
        apply subseq_app; [eapply F3; eauto|]. apply subseq_skipn.
      - rewrite set_nth_other in Hb by auto. apply subseq_weak. eapply F3; eauto. }
    destruct M as [LB M].
    (* the exclusive part *)
    assert (Q : forall k id ch, obtained tr k id -> nth_error (s_chans s) id = Some ch ->
      subsequence (x_given id tr ++ m_queue ch) (t_arr k arr)).
    { intros k id ch X Hn. specialize (F1 _ _ _ X Hn). unfold blk in F1. rewrite B, app_nil_r in F1. auto. }
    destruct (find _ (exclusive_list s)) as [[k0 c]|] eqn:Fd.
    2:{ injection H as <- <-. split; cbn; auto.
        - intros k id ch X Hn. unfold blk. cbn. rewrite app_nil_r, t_arr_snoc. apply subseq_weak. eauto.
        - intros k k' id r X Hr Hi. eapply F5; eauto. eapply retain_incl; eauto. }
    apply find_some in Fd as [Hi Hk]. unfold key_matches in Hk. cbn [fst] in Hk.
    destruct (mpsc_try_send c f (s_chans s)) as [chans r] eqn:T. destruct (try_send_spec _ _ _ _ _ T) as (LC & NC & Sp).
    assert (K : forall k, obtained tr k c -> of_topic k f = true).
    { intros k X. unfold of_topic. rewrite <- (i_one _ _ I k0 k c); auto. eapply i_in; eauto. }
    destruct r; [|destruct nw|]; injection H as <- <-.
    - destruct Sp as (ch0 & N0 & _ & _ & ->). split; cbn [finish s_chans s_bcasts s_mrxs broadcast_list]; auto; rewrite ?set_nth_length; auto.
      + intros k id ch X Hn. unfold blk. cbn [finish s_blocked]. rewrite app_nil_r, t_arr_snoc. destruct (Nat.eq_dec c id) as [->|Ne].
        * rewrite (set_nth_some _ _ _ _ _ N0) in Hn. injection Hn as <-. cbn [m_queue]. rewrite K by auto. rewrite app_assoc.
          apply subseq_app; [eauto|apply subseq_refl].
        * rewrite set_nth_other in Hn by auto. apply subseq_weak. eauto.
      + intros k k' id r X Hr Hj. eapply F5; eauto. eapply retain_incl; eauto.
    - rewrite (NC ltac:(discriminate)) in *. split; cbn; auto.
      + intros k id ch X Hn. unfold blk. cbn. rewrite app_nil_r, t_arr_snoc. apply subseq_weak. eauto.
      + intros k k' id r X Hr Hj. eapply F5; eauto. eapply retain_incl; eauto.
    - rewrite (NC ltac:(discriminate)) in *. split; cbn; auto.
      intros k id ch X Hn. unfold blk. cbn. rewrite t_arr_snoc. rewrite app_assoc. apply subseq_app; [eauto|].
      destruct (c =? id) eqn:Ec; [|constructor]. apply Nat.eqb_eq in Ec. subst id. rewrite K by auto. apply subseq_refl.
    - rewrite (NC ltac:(discriminate)) in *. split; cbn; auto.
      + intros k id ch X Hn. unfold blk. cbn. rewrite app_nil_r, t_arr_snoc. apply subseq_weak. eauto.
      + intros k k' id r X Hr Hj. eapply F5; eauto. eapply retain_incl; eauto.
  Qed.

  Lemma fl_unblock tr arr s w s' : Inv tr s -> Fl tr arr s -> unblock w s = Some s' -> Fl tr arr s'.
  Proof.
    intros I F H. unfold unblock in H. destruct (s_blocked s) as [[[c f] rm]|] eqn:B; [|discriminate].
    destruct (mpsc_try_send c f (s_chans s)) as [chans r] eqn:T. destruct (try_send_spec _ _ _ _ _ T) as (LC & NC & Sp).
    assert (Drop : forall x y, Fl tr arr (finish x y rm s)).
    { intros x y. eapply fl_shrink; eauto; try reflexivity; cbn; auto. apply retain_incl. }
    destruct w, r; try discriminate; injection H as <-; auto.
    destruct F as [F1 F2 F3 F4 F5]. destruct Sp as (ch0 & N0 & _ & _ & ->). split; cbn; auto; rewrite ?set_nth_length; auto.
    - intros k id ch X Hn. unfold blk. cbn [finish with_exclusive s_blocked]. rewrite app_nil_r. destruct (Nat.eq_dec c id) as [->|Ne].
      + rewrite (set_nth_some _ _ _ _ _ N0) in Hn. injection Hn as <-. cbn [m_queue].
        specialize (F1 _ _ _ X N0). unfold blk in F1. rewrite B, Nat.eqb_refl in F1. auto.
      + rewrite set_nth_other in Hn by auto. specialize (F1 _ _ _ X Hn). unfold blk in F1. rewrite B in F1.
        destruct (c =? id) eqn:Ec; [apply Nat.eqb_eq in Ec; congruence|]. rewrite app_nil_r in F1. auto.
    - intros k k' id r X Hr Hj. eapply F5; eauto. eapply retain_incl; eauto.
  Qed.

  Lemma fl_subscribe tr arr s legacy k d s' r : Inv tr s -> Fl tr arr s -> s_blocked s = None -> subscribe_mpsc legacy k d s = (s', r) ->
    Fl (tr ++ [((if legacy then SubscribeLegacy k d else SubscribeExclusive k d), ORes r)]) arr s'.
  Proof.
    intros I F B H. destruct (sub_mpsc_cases _ _ _ _ _ _ H) as [(-> & C)|(_ & _ & -> & l & -> & _)].
    { apply fl_silent; auto. destruct C as [(_ & ->)|[(_ & _ & ->)|(_ & _ & _ & -> & _)]]; destruct legacy; exact Logic.I. }
    destruct F as [F1 F2 F3 F4 F5]. set (e := (_, _)).
    assert (Gx : forall id, x_given id (tr ++ [e]) = x_given id tr) by (intros; rewrite x_given_snoc; unfold e; destruct legacy; apply app_nil_r).
    assert (Gm : forall id, m_given id (tr ++ [e]) = m_given id tr) by (intros; rewrite m_given_snoc; unfold e; destruct legacy; apply app_nil_r).
    assert (Om : forall k0 id, obtained_multi (tr ++ [e]) k0 id -> obtained_multi tr k0 id).
    { intros k0 id X. apply obtained_multi_app in X. destruct X as [X|(d0 & X)]; auto. unfold e in X. destruct legacy; discriminate. }
    split; cbn [with_exclusive s_chans s_bcasts s_mrxs broadcast_list].
    - intros k0 id ch X Hn. rewrite Gx. unfold blk. cbn [with_exclusive s_blocked]. rewrite B, app_nil_r.
      apply nth_snoc_cases in Hn as [Hn|[-> ->]].
      + apply obtained_app in X. destruct X as [X|(d0 & X)].
        * specialize (F1 _ _ _ X Hn). unfold blk in F1. rewrite B, app_nil_r in F1. auto.
        * assert (id = length (s_chans s)) by (unfold e in X; destruct legacy; destruct X as [X|X]; congruence). subst id.
          assert (length (s_chans s) < length (s_chans s)) by (apply nth_error_Some; congruence). lia.
      + cbn. rewrite app_nil_r, F2 by auto. constructor.
    - intros id L. rewrite Gx. apply F2. rewrite app_length in L. lia.
    - intros k0 id r0 b X. rewrite Gm. eauto.
    - intros id L. rewrite Gm. auto.
    - intros k0 k' id r0 X. eauto.
  Qed.

  Lemma fl_subscribe_multi tr arr s k d s' r : Inv tr s -> Fl tr arr s -> subscribe_multi k d s = (s', r) ->
    Fl (tr ++ [(SubscribeMulti k d, ORes r)]) arr s'.
  Proof.
    intros I F H. unfold subscribe_multi in H.
    destruct (s_stopped s); [injection H as <- <-; apply fl_silent; auto; exact Logic.I|].
    assert (Gx : forall id r0, x_given id (tr ++ [(SubscribeMulti k d, ORes r0)]) = x_given id tr) by (intros; rewrite x_given_snoc; apply app_nil_r).
    assert (Gm : forall id r0, m_given id (tr ++ [(SubscribeMulti k d, ORes r0)]) = m_given id tr) by (intros; rewrite m_given_snoc; apply app_nil_r).
    assert (Ox : forall k0 id r0, obtained (tr ++ [(SubscribeMulti k d, ORes r0)]) k0 id -> obtained tr k0 id).
    { intros k0 id r0 X. apply obtained_app in X. destruct X as [X|(d0 & [X|X])]; auto; discriminate. }
    assert (Om : forall k0 id i0, obtained_multi (tr ++ [(SubscribeMulti k d, ORes (Subscribed i0))]) k0 id -> obtained_multi tr k0 id \/ (k0 = k /\ id = i0)).
    { intros k0 id i0 X. apply obtained_multi_app in X. destruct X as [X|(d0 & X)]; auto. injection X as <- _ <-. auto. }
    assert (Nx : forall id (x : MultiRx), nth_error (s_mrxs s) id = Some x -> id < length (s_mrxs s)).
    { intros id x Hn. apply nth_error_Some. congruence. }
    destruct (find _ _) as [[k' c]|] eqn:Fd.
    - apply find_key in Fd as [E Hi]. cbn in E. subst k'. injection H as <- <-. destruct F as [F1 F2 F3 F4 F5].
      split; cbn [s_chans s_bcasts s_mrxs broadcast_list].
      + intros k0 id ch X Hn. rewrite Gx. eapply F1; eauto.
      + intros id L. rewrite Gx. auto.
      + intros k0 id r0 b X Hn Hb. rewrite Gm. apply nth_snoc_cases in Hn as [Hn|[-> ->]].
        * apply Om in X as [X|[-> ->]]; [eauto|]. apply Nx in Hn. lia.
        * cbn [r_chan r_next] in *. rewrite Hb, F4, skipn_all by auto. constructor.
      + intros id L. rewrite Gm. apply F4. rewrite app_length in L. lia.
      + intros k0 k' id r0 X Hn Hj. apply nth_snoc_cases in Hn as [Hn|[-> ->]].
        * apply Om in X as [X|[-> ->]]; [eauto|]. apply Nx in Hn. lia.
        * cbn [r_chan] in Hj. apply Om in X as [X|[-> _]]. { apply (i_mlt _ _ I) in X. lia. }
          eapply nodup_snd_in; [apply (i_bids _ _ I)| |]; eauto.
    - destruct d as [|d]; injection H as <- <-; [apply fl_silent; auto; exact Logic.I|]. destruct F as [F1 F2 F3 F4 F5].
      split; cbn [s_chans s_bcasts s_mrxs broadcast_list].
      + intros k0 id ch X Hn. rewrite Gx. eapply F1; eauto.
      + intros id L. rewrite Gx. auto.
      + intros k0 id r0 b X Hn Hb. rewrite Gm. apply nth_snoc_cases in Hn as [Hn|[-> ->]].
        * apply Om in X as [X|[-> ->]]; [|apply Nx in Hn; lia].
          pose proof (i_rlt _ _ I _ (nth_error_In _ _ Hn)) as L. rewrite nth_error_app1 in Hb by auto. eauto.
        * cbn [r_chan r_next] in *. rewrite nth_error_app2, Nat.sub_diag in Hb by auto. injection Hb as <-. cbn. rewrite F4 by auto. constructor.
      + intros id L. rewrite Gm. apply F4. rewrite app_length in L. lia.
      + intros k0 k' id r0 X Hn Hj. apply in_app_iff in Hj. apply nth_snoc_cases in Hn as [Hn|[-> ->]].
        * apply Om in X as [X|[-> ->]]; [|apply Nx in Hn; lia]. destruct Hj as [Hj|[Hj|[]]]; [eauto|].
          injection Hj as _ Hj. pose proof (i_rlt _ _ I _ (nth_error_In _ _ Hn)) as L. lia.
        * cbn [r_chan] in Hj. apply Om in X as [X|[-> _]]. { apply (i_mlt _ _ I) in X. lia. }
          destruct Hj as [Hj|[Hj|[]]]; [apply (i_blt _ _ I) in Hj; lia|]. congruence.
  Qed.

  Lemma fl_recv tr arr s id s' r : Fl tr arr s -> x_alive id s = true -> recv_exclusive id s = (s', r) -> Fl (tr ++ [(ReceiveX id, OX r)]) arr s'.
  Proof.
    intros F A H. unfold x_alive in A. unfold recv_exclusive in H. destruct (nth_error (s_chans s) id) as [ch|] eqn:N; [|discriminate].
    destruct (m_queue ch) as [|f q] eqn:Q.
    { destruct (connected _ _); injection H as <- <-; apply fl_silent; auto; exact Logic.I. }
    injection H as <- <-. destruct F as [F1 F2 F3 F4 F5].
    assert (Ox : forall k0 i, obtained (tr ++ [(ReceiveX id, OX (XGot f))]) k0 i -> obtained tr k0 i).
    { intros k0 i X. apply obtained_app in X. destruct X as [X|(d0 & [X|X])]; auto; discriminate. }
    assert (Om : forall k0 i, obtained_multi (tr ++ [(ReceiveX id, OX (XGot f))]) k0 i -> obtained_multi tr k0 i).
    { intros k0 i X. apply obtained_multi_app in X. destruct X as [X|(d0 & X)]; auto; discriminate. }
    assert (Gm : forall i, m_given i (tr ++ [(ReceiveX id, OX (XGot f))]) = m_given i tr) by (intros; rewrite m_given_snoc; apply app_nil_r).
    split; cbn [with_exclusive s_chans s_bcasts s_mrxs broadcast_list]; rewrite ?set_nth_length.
    - intros k i ch' X Hn. apply Ox in X. rewrite x_given_snoc. change (blk i (with_exclusive s _ _)) with (blk i s).
      destruct (Nat.eq_dec id i) as [->|Ne].
      + rewrite (set_nth_some _ _ _ _ _ N) in Hn. injection Hn as <-. cbn [m_queue]. rewrite Nat.eqb_refl.
        specialize (F1 _ _ _ X N). rewrite Q in F1. rewrite <- app_assoc. exact F1.
      + rewrite set_nth_other in Hn by auto. apply Nat.eqb_neq in Ne. rewrite Ne, app_nil_r. eauto.
    - intros i L. rewrite x_given_snoc, F2 by auto. destruct (id =? i) eqn:E; auto. apply Nat.eqb_eq in E. subst i.
      assert (id < length (s_chans s)) by (apply nth_error_Some; congruence). lia.
    - intros k i r0 b X. rewrite Gm. eauto.
    - intros i L. rewrite Gm. auto.
    - intros k k' i r0 X. eauto.
  Qed.

  Lemma fl_recv_multi tr arr s id s' r : Fl tr arr s -> m_alive id s = true -> recv_multi id s = (s', r) -> Fl (tr ++ [(ReceiveM id, OM r)]) arr s'.
  Proof.
    intros F A H. unfold m_alive in A. unfold recv_multi in H. destruct (nth_error (s_mrxs s) id) as [rx|] eqn:N; [|discriminate].
    destruct (nth_error (s_bcasts s) (r_chan rx)) as [b|] eqn:Nb; [|injection H as <- <-; apply fl_silent; auto; exact Logic.I].
    (* what becomes of the other parts when the reader moves on *)
    assert (Mv : forall n e, (forall i, x_given i (tr ++ [e]) = x_given i tr) -> (forall k i, obtained (tr ++ [e]) k i -> obtained tr k i) ->
      (forall k i, obtained_multi (tr ++ [e]) k i -> obtained_multi tr k i) ->
      (forall i, i <> id -> m_given i (tr ++ [e]) = m_given i tr) ->
      (forall k, obtained_multi tr k id -> subsequence (m_given id (tr ++ [e]) ++ skipn n (b_log b)) (t_arr k arr)) ->
      Fl (tr ++ [e]) arr (MkSubs (exclusive_list s) (broadcast_list s) (s_stopped s) (s_chans s) (s_bcasts s)
                                 (set_nth id (MkMrx (r_chan rx) n (r_alive rx)) (s_mrxs s)) (s_blocked s))).
    { intros n e Gx Ox Om Gm Gi. destruct F as [F1 F2 F3 F4 F5]. split; cbn [s_chans s_bcasts s_mrxs broadcast_list]; rewrite ?set_nth_length.
      - intros k i ch X Hn. rewrite Gx. eapply F1; eauto.
      - intros i L. rewrite Gx. auto.
      - intros k i r0 b0 X Hn Hb. apply Om in X. destruct (Nat.eq_dec id i) as [->|Ne].
        + rewrite (set_nth_some _ _ _ _ _ N) in Hn. injection Hn as <-. cbn [r_chan r_next] in *. rewrite Nb in Hb. injection Hb as <-. auto.
        + rewrite set_nth_other in Hn by auto. rewrite Gm by auto. eauto.
      - intros i L. rewrite Gm; auto. intros ->. assert (id < length (s_mrxs s)) by (apply nth_error_Some; congruence). lia.
      - intros k k' i r0 X Hn Hi. apply Om in X. destruct (Nat.eq_dec id i) as [->|Ne].
        + rewrite (set_nth_some _ _ _ _ _ N) in Hn. injection Hn as <-. cbn [r_chan] in Hi. eauto.
        + rewrite set_nth_other in Hn by auto. eauto. }
    destruct (Nat.ltb_spec (r_next rx) (length (b_log b) - b_cap b)) as [L|L].
    - injection H as <- <-. apply Mv.
      + intros. apply silent_x. exact Logic.I.
      + intros k i. apply silent_obt. exact Logic.I.
      + intros k i. apply silent_obtm. exact Logic.I.
      + intros. apply silent_m. exact Logic.I.
      + intros k X. rewrite silent_m by exact Logic.I. eapply subseq_trans; [eapply (fl_m _ _ _ F); eauto|].
        apply subseq_app; [apply subseq_refl|]. apply skipn_skipn_le. lia.
    - destruct (nth_error (b_log b) (r_next rx)) as [f|] eqn:Nf.
      + injection H as <- <-. apply Mv.
        * intros. rewrite x_given_snoc. apply app_nil_r.
        * intros k i X. apply obtained_app in X. destruct X as [X|(d0 & [X|X])]; auto; discriminate.
        * intros k i X. apply obtained_multi_app in X. destruct X as [X|(d0 & X)]; auto; discriminate.
        * intros i Ne. rewrite m_given_snoc. destruct (id =? i) eqn:E; [apply Nat.eqb_eq in E; congruence|]. apply app_nil_r.
        * intros k X. rewrite m_given_snoc, Nat.eqb_refl. rewrite <- app_assoc.
          replace ([f] ++ skipn (S (r_next rx)) (b_log b)) with (skipn (r_next rx) (b_log b)). { eapply (fl_m _ _ _ F); eauto. }
          clear - Nf. revert Nf. generalize (r_next rx). induction (b_log b); intros [|n] Nf; try discriminate; cbn in *; [congruence|]. rewrite IHl by auto. reflexivity.
      + destruct (connected _ _); injection H as <- <-; apply fl_silent; auto; exact Logic.I.
  Qed.

  (** The last column of [Deliver] and [Unblock] plays no part. *)
  Lemma fl_step tr arr s o s' out : Inv tr s -> Fl tr arr s -> sub_step nw o s = Some (s', out) ->
    Inv (tr ++ [(o, out)]) s' /\ Fl (tr ++ [(o, out)]) (arr ++ match o with Deliver f => [f] | _ => [] end) s'.
  Proof.
    intros I F H. split; [eapply inv_step; eauto|]. unfold sub_step in H.
    assert (Bl : blocked s = false -> s_blocked s = None) by (unfold blocked; destruct (s_blocked s); [discriminate|auto]).
    destruct o; rewrite ?app_nil_r.
    - destruct (blocked s); [discriminate|]. destruct (subscribe_mpsc _ _ _ _) as [s1 r] eqn:E. injection H as <- <-. exact (fl_subscribe _ _ _ false _ _ _ _ I F (Bl eq_refl) E).
    - destruct (blocked s); [discriminate|]. destruct (subscribe_mpsc _ _ _ _) as [s1 r] eqn:E. injection H as <- <-. exact (fl_subscribe _ _ _ true _ _ _ _ I F (Bl eq_refl) E).
    - destruct (blocked s); [discriminate|]. destruct (subscribe_multi _ _ _) as [s1 r] eqn:E. injection H as <- <-. eapply fl_subscribe_multi; eauto.
    - destruct (blocked s); [discriminate|]. destruct (s_stopped s); [discriminate|]. cbn [orb] in H.
      destruct (deliver nw f s) as [s1 d] eqn:E. injection H as <- <-. apply fl_silent; [|exact Logic.I]. eapply fl_deliver; eauto.
    - destruct (unblock w s) as [s1|] eqn:E; [|discriminate]. injection H as <- <-. apply fl_silent; [|exact Logic.I]. eapply fl_unblock; eauto.
    - destruct (x_alive id s) eqn:A; [|discriminate]. destruct (recv_exclusive id s) as [s1 r] eqn:E. injection H as <- <-. eapply fl_recv; eauto.
    - destruct (m_alive id s) eqn:A; [|discriminate]. destruct (recv_multi id s) as [s1 r] eqn:E. injection H as <- <-. eapply fl_recv_multi; eauto.
    - destruct (x_alive id s) eqn:A; [|discriminate]. injection H as <- <-. apply fl_silent; [|exact Logic.I]. unfold drop_exclusive.
      destruct (nth_error (s_chans s) id) as [ch|] eqn:N; auto. destruct F as [F1 F2 F3 F4 F5]. split; cbn; rewrite ?set_nth_length; auto.
      intros k i ch' X Hn. change (blk i (with_exclusive s _ _)) with (blk i s). destruct (Nat.eq_dec id i) as [->|Ne].
      + rewrite (set_nth_some _ _ _ _ _ N) in Hn. injection Hn as <-. cbn [m_queue]. eapply subseq_trans; [eapply F1; eauto|].
        apply subseq_app; [apply subseq_refl|]. apply subseq_app; [constructor|apply subseq_refl].
      + rewrite set_nth_other in Hn by auto. eauto.
    - destruct (m_alive id s) eqn:A; [|discriminate]. injection H as <- <-. apply fl_silent; [|exact Logic.I]. unfold drop_multi.
      destruct (nth_error (s_mrxs s) id) as [rx|] eqn:N; auto. destruct F as [F1 F2 F3 F4 F5]. split; cbn; rewrite ?set_nth_length; auto.
      + intros k i r b X Hn Hb. destruct (Nat.eq_dec id i) as [->|Ne].
        * rewrite (set_nth_some _ _ _ _ _ N) in Hn. injection Hn as <-. cbn [r_chan r_next] in *. eauto.
        * rewrite set_nth_other in Hn by auto. eauto.
      + intros k k' i r X Hn Hi. destruct (Nat.eq_dec id i) as [->|Ne].
        * rewrite (set_nth_some _ _ _ _ _ N) in Hn. injection Hn as <-. cbn [r_chan] in *. eauto.
        * rewrite set_nth_other in Hn by auto. eauto.
    - injection H as <- <-. apply fl_silent; [|exact Logic.I]. eapply fl_shrink; eauto; try reflexivity. { intros x []. }
  Qed.
End Steps.
