(** Lemmas about what a subscription holds and gives, and about what is on the way to it. *)
From Coq Require Import NArith List Bool Arith Lia Permutation.
From Verif Require Import KeyModel HeaderModel KeySpec KeyProof SubModel SubSpec SubProof SubThm SubThm2 ClientModel ClientSpec ClientProof ClientHist ClientMore UsbSpec FlowBase SubFlow FlowSpec FlowProof LiveSpec MissSpec.
Import ListNotations.

Definition of_opt {A} (w : option A) : list A := match w with Some f => [f] | None => [] end.

(** ** One step of an exclusive subscription *)
Section X.
  Variable nw : bool.
  Variables (k : Key8) (id depth : nat) (keys : list Key8).
  Notation XSim := (XSim k id depth keys).

  Definition x_got (o : SubOp) (out : SubOut) : list RpcFrame :=
    match o, out with ReceiveX i, OX (XGot f) => if i =? id then [f] else [] | _, _ => [] end.

  Lemma xsim_w s q w mine : XSim s q w mine ->
    w = match s_blocked s with Some (c, f, _) => if c =? id then Some f else None | None => None end.
  Proof.
    intros [_ _ _ B]. unfold blockrel in B. destruct (s_blocked s) as [[[c f] rm]|]; auto. destruct mine.
    - destruct B as [-> ->]. now rewrite Nat.eqb_refl.
    - destruct B as (N & -> & _). destruct (Nat.eqb_spec c id); congruence.
  Qed.

  Lemma x_conserve tr s q w mine o s' q' w' mine' out : Inv tr s -> XSim s q w mine -> XSim s' q' w' mine' ->
    no_confusion k keys [o] -> x_undisturbed k id [o] -> sub_step nw o s = Some (s', out) ->
    (forall f, o = Deliver f -> of_topic k f = true -> nw = true -> length q < depth) ->
    (o = Unblock TimeUp -> w = None) ->
    x_got o out ++ q' ++ of_opt w' = q ++ of_opt w ++ arrivals k [o] /\
    (o = ReceiveX id -> out = OX XWaiting -> q' = []) /\
    (length q < depth -> forall f, o = Deliver f -> of_topic k f = true -> w' = None) /\
    (w = None -> w' = None \/ exists f, o = Deliver f).
  Proof.
    intros I X X' NC (U1 & U2 & U3) H Hn Ht.
    pose proof (xsim_w _ _ _ _ X) as W. pose proof (xsim_w _ _ _ _ X') as W'.
    destruct X as [XK XH XC XB]. destruct X' as [_ _ XC' _].
    assert (Quiet : s_blocked s' = s_blocked s -> nth_error (s_chans s') id = nth_error (s_chans s) id -> q' = q /\ w' = w).
    { intros E1 E2. rewrite E1 in W'. rewrite E2, XC in XC'. injection XC' as <-. split; congruence. }
    assert (Done : (forall f, o <> Deliver f) -> x_got o out = [] -> (o = ReceiveX id -> out = OX XWaiting -> q' = []) -> q' = q /\ w' = w ->
      x_got o out ++ q' ++ of_opt w' = q ++ of_opt w ++ arrivals k [o] /\
      (o = ReceiveX id -> out = OX XWaiting -> q' = []) /\
      (length q < depth -> forall f, o = Deliver f -> of_topic k f = true -> w' = None) /\
      (w = None -> w' = None \/ exists f, o = Deliver f)).
    { intros E1 E2 E3 [-> ->]. rewrite E2. cbn [app]. split.
      - destruct o; cbn [arrivals flat_map app]; rewrite ?app_nil_r; auto. destruct (E1 f eq_refl).
      - split; [exact E3|]. split; [|auto]. intros _ f E. destruct (E1 f E). }
    assert (IdLt : id < length (s_chans s)) by (apply nth_error_Some; congruence).
    assert (BN : blocked s = false -> s_blocked s = None) by (unfold blocked; destruct (s_blocked s); [discriminate|auto]).
    assert (SubX : forall legacy k0 d s1 r, subscribe_mpsc legacy k0 d s = (s1, r) -> s_blocked s1 = s_blocked s /\ nth_error (s_chans s1) id = nth_error (s_chans s) id).
    { intros legacy k0 d s1 r E. apply sub_mpsc_cases in E. destruct E as [(-> & _)|(_ & _ & -> & l & -> & E)]; [auto|].
      cbn [with_exclusive s_blocked s_chans]. rewrite nth_error_app1; auto. }
    unfold sub_step in H. destruct o.
    - destruct (blocked s); [discriminate|]. destruct (subscribe_mpsc false k0 depth0 s) as [s1 r] eqn:E. injection H as <- <-.
      apply Done; try discriminate; auto. apply Quiet; eapply SubX; eauto.
    - destruct (blocked s); [discriminate|]. destruct (subscribe_mpsc true k0 depth0 s) as [s1 r] eqn:E. injection H as <- <-.
      apply Done; try discriminate; auto. apply Quiet; eapply SubX; eauto.
    - destruct (blocked s); [discriminate|]. destruct (subscribe_multi k0 depth0 s) as [s1 r] eqn:E. injection H as <- <-.
      apply Done; try discriminate; auto. unfold subscribe_multi in E. destruct (s_stopped s); [injection E as <- <-; auto|].
      destruct (find _ _) as [[k' c]|]; [injection E as <- <-; auto|]. destruct depth0; injection E as <- <-; auto.
    - (* Deliver *)
      destruct (blocked s) eqn:Bk; [discriminate|]. destruct (s_stopped s) eqn:St; [discriminate|]. cbn [orb] in H.
      specialize (BN eq_refl). rewrite BN in W. subst w.
      destruct (deliver nw f s) as [s1 dl] eqn:E. injection H as <- <-.
      rewrite deliver_eq in E. cbv zeta in E. destruct (deliver_mul f s) as [[bs h1] rm].
      cbn [x_got arrivals flat_map app of_opt]. split; [|split; [discriminate|split; [|eauto]]].
      + destruct (of_topic k f) eqn:OT.
        * assert (F : find (key_matches (hdr_key (f_hdr f))) (exclusive_list s) = Some (k, id)).
          { apply find_unique; auto. intros [k' i'] Y M. rewrite key_matches_topic in M.
            assert (k' = k) by (apply (NC f k'); auto; [now left|eauto]). subst k'.
            f_equal. eapply nodup_fst_in; eauto. apply (i_keys _ _ I). }
          rewrite F in E. unfold mpsc_try_send in E. rewrite XC in E. cbn [m_rx m_queue m_cap] in E.
          destruct (Nat.ltb_spec (length q) depth) as [LQ|LQ].
          -- injection E as <- <-. cbn [finish s_blocked s_chans] in *. rewrite set_nth_same in XC' by auto.
             injection XC' as <-. subst w'. cbn [of_opt]. rewrite !app_nil_r. reflexivity.
          -- destruct nw eqn:NW. { specialize (Hn f eq_refl OT eq_refl). lia. }
             injection E as <- <-. cbn [s_blocked s_chans] in *. rewrite XC in XC'. injection XC' as <-. rewrite Nat.eqb_refl in W'. subst w'. reflexivity.
        * assert (G : nth_error (s_chans s1) id = nth_error (s_chans s) id /\ w' = None).
          { destruct (find (key_matches (hdr_key (f_hdr f))) (exclusive_list s)) as [[k' c]|] eqn:F.
            - apply find_some in F. destruct F as [F M]. rewrite key_matches_topic in M.
              assert (NE : c <> id). { intros ->. assert (k' = k) by (eapply nodup_snd_in; eauto; apply (i_ids _ _ I)). subst. congruence. }
              destruct (mpsc_try_send c f (s_chans s)) as [chans r] eqn:T. destruct (try_send_spec _ _ _ _ _ T) as (LC & N & Mr).
              assert (CH : nth_error chans id = nth_error (s_chans s) id).
              { destruct r; [|now rewrite N by discriminate|now rewrite N by discriminate].
                destruct Mr as (ch & _ & _ & _ & ->). now rewrite set_nth_other by auto. }
              destruct r; [|destruct nw|]; injection E as <- <-; cbn [finish s_blocked s_chans] in *; auto.
              split; auto. destruct (Nat.eqb_spec c id); congruence.
            - injection E as <- <-. cbn [finish s_blocked s_chans] in *. auto. }
          destruct G as [G1 ->]. rewrite G1, XC in XC'. injection XC' as <-. cbn [of_opt]. reflexivity.
      + intros LQ f0 [= <-] OT.
        assert (F : find (key_matches (hdr_key (f_hdr f))) (exclusive_list s) = Some (k, id)).
        { apply find_unique; auto. intros [k' i'] Y M. rewrite key_matches_topic in M.
          assert (k' = k) by (apply (NC f k'); auto; [now left|eauto]). subst k'.
          f_equal. eapply nodup_fst_in; eauto. apply (i_keys _ _ I). }
        rewrite F in E. unfold mpsc_try_send in E. rewrite XC in E. cbn [m_rx m_queue m_cap] in E.
        apply Nat.ltb_lt in LQ. rewrite LQ in E. injection E as <- <-. cbn [finish s_blocked] in W'. exact W'.
    - (* Unblock *)
      destruct (unblock w0 s) as [s1|] eqn:E; [|discriminate]. injection H as <- <-. unfold unblock in E.
      destruct (s_blocked s) as [[[c f] rm]|] eqn:Bk; [|discriminate].
      cbn [x_got arrivals flat_map app]. rewrite app_nil_r.
      destruct (mpsc_try_send c f (s_chans s)) as [chans r] eqn:T. destruct (try_send_spec _ _ _ _ _ T) as (LC & N & Mr).
      assert (B' : s_blocked s1 = None) by (destruct w0, r; try discriminate; injection E as <-; reflexivity).
      rewrite B' in W'. subst w'. cbn [of_opt]. rewrite app_nil_r. split; [|split; [discriminate|split; [discriminate|auto]]].
      destruct (Nat.eqb_spec c id) as [->|NE]; subst w; cbn [of_opt].
      + destruct w0; [| |discriminate (Ht eq_refl)].
        * destruct r; try discriminate. injection E as <-. destruct Mr as (ch & N1 & _ & _ & ->). rewrite XC in N1. injection N1 as <-.
          cbn [finish with_exclusive s_chans m_cap m_queue] in XC'. rewrite set_nth_same in XC' by auto. injection XC' as <-. reflexivity.
        * unfold mpsc_try_send in T. rewrite XC in T. cbn [m_rx m_queue m_cap] in T. destruct (length q <? depth); injection T as <- <-; discriminate.
      + rewrite app_nil_r. assert (CH : nth_error chans id = nth_error (s_chans s) id).
        { destruct r; [|now rewrite N by discriminate|now rewrite N by discriminate].
          destruct Mr as (ch & _ & _ & _ & ->). now rewrite set_nth_other by auto. }
        assert (G : nth_error (s_chans s1) id = nth_error (s_chans s) id).
        { destruct w0, r; try discriminate; injection E as <-; cbn [finish with_exclusive s_chans]; auto. }
        rewrite G, XC in XC'. injection XC' as <-. reflexivity.
    - (* ReceiveX *)
      destruct (x_alive id0 s) eqn:XA; [|discriminate]. destruct (recv_exclusive id0 s) as [s1 r] eqn:E. injection H as <- <-.
      unfold recv_exclusive in E. destruct (Nat.eqb_spec id0 id) as [->|NE].
      + rewrite XC in E. cbn [m_queue m_cap m_rx] in E. destruct q as [|f q].
        * assert (C : connected id (exclusive_list s) = true) by (apply connected_iff; eauto). rewrite C in E. injection E as <- <-.
          destruct (Quiet eq_refl eq_refl) as [-> ->]. apply Done; auto; discriminate.
        * injection E as <- <-. cbn [with_exclusive s_chans s_blocked] in *. rewrite set_nth_same in XC' by auto. injection XC' as <-.
          rewrite <- W in W'. subst w'. cbn [x_got arrivals flat_map app]. rewrite Nat.eqb_refl, app_nil_r. repeat split; try discriminate; auto.
      + assert (G : s_blocked s1 = s_blocked s /\ nth_error (s_chans s1) id = nth_error (s_chans s) id).
        { destruct (nth_error (s_chans s) id0) as [ch|]; [|injection E as <- <-; auto].
          destruct (m_queue ch) as [|f q1]; [destruct (connected id0 (exclusive_list s)); injection E as <- <-; auto|].
          injection E as <- <-. cbn [with_exclusive s_blocked s_chans]. rewrite set_nth_other; auto. }
        apply Done; try discriminate. { destruct r; cbn [x_got]; auto. now destruct (Nat.eqb_spec id0 id). }
        { intros [= E']. congruence. } { destruct G. auto. }
    - destruct (m_alive id0 s); [|discriminate]. destruct (recv_multi id0 s) as [s1 r] eqn:E. injection H as <- <-.
      apply Done; try discriminate; auto. unfold recv_multi in E.
      destruct (nth_error (s_mrxs s) id0) as [rx|]; [|injection E as <- <-; auto].
      destruct (nth_error (s_bcasts s) (r_chan rx)); [|injection E as <- <-; auto].
      destruct (_ <? _); [injection E as <- <-; auto|].
      destruct (nth_error _ (r_next rx)); [injection E as <- <-; auto|].
      destruct (connected (r_chan rx) (broadcast_list s)); injection E as <- <-; auto.
    - destruct (x_alive id0 s); [|discriminate]. injection H as <- <-. apply Done; try discriminate; auto.
      assert (id0 <> id) by (intros ->; apply U2; now left). unfold drop_exclusive in *.
      destruct (nth_error (s_chans s) id0) as [ch|]; auto. apply Quiet; auto. cbn [with_exclusive s_chans]. rewrite set_nth_other; auto.
    - destruct (m_alive id0 s); [|discriminate]. injection H as <- <-. apply Done; try discriminate; auto.
      unfold drop_multi in *. destruct (nth_error (s_mrxs s) id0); auto.
    - exfalso. apply U1. now left.
  Qed.
End X.

(** ** One step of a broadcast subscription *)
Section M.
  Variable nw : bool.
  Variables (k : Key8) (id c cap : nat) (pre : list RpcFrame) (keys : list Key8).
  Notation MSim := (MSim k id c cap pre keys).

  Definition m_got (o : SubOp) (out : SubOut) : list RpcFrame :=
    match o, out with ReceiveM i, OM (MGot f) => if i =? id then [f] else [] | _, _ => [] end.

  Lemma m_open s arr pos s' out : MSim s arr pos -> sub_step nw (ReceiveM id) s = Some (s', out) -> out <> OM MClosed.
  Proof.
    intros [XK XH XC XR XB] H ->. cbn [sub_step] in H. destruct (m_alive id s); [|discriminate]. destruct (recv_multi id s) as [s1 r] eqn:E. injection H as _ ->.
    unfold recv_multi in E. rewrite XR in E. cbn [r_chan r_next r_alive] in E. rewrite XC in E. cbn [b_log b_cap] in E.
    match type of E with (if ?x then _ else _) = _ => destruct x; [discriminate|] end.
    match type of E with match ?x with _ => _ end = _ => destruct x; [discriminate|] end.
    destruct (connected c (broadcast_list s)) eqn:Cn; [discriminate|].
    unfold connected in Cn. assert (existsb (fun x => snd x =? c) (broadcast_list s) = true).
    { apply existsb_exists. exists (k, c). split; auto. cbn. apply Nat.eqb_refl. }
    congruence.
  Qed.

  Lemma m_conserve tr s arr pos o s' arr' pos' out : pos <= length arr -> Inv tr s -> MSim s arr pos -> MSim s' arr' pos' ->
    no_confusion k keys [o] -> m_undisturbed id [o] -> sub_step nw o s = Some (s', out) ->
    ((o = ReceiveM id -> forall n, out <> OM (MLagged n)) ->
       m_got o out ++ skipn pos' arr' = skipn pos arr ++ arrivals k [o]) /\
    (o = ReceiveM id -> out = OM MWaiting -> skipn pos' arr' = []) /\
    (o = ReceiveM id -> length (skipn pos arr) <= cap -> forall n, out <> OM (MLagged n)) /\ pos' <= length arr'.
  Proof.
    intros Hp I X X' NC (U1 & U2) H.
    destruct X as [XK XH XC XR XB]. destruct X' as [_ _ XC' XR' _].
    assert (Quiet : nth_error (s_bcasts s') c = nth_error (s_bcasts s) c -> nth_error (s_mrxs s') id = nth_error (s_mrxs s) id -> arr' = arr /\ pos' = pos).
    { intros E1 E2. rewrite E1, XC in XC'. injection XC' as E. apply app_inv_head in E. rewrite E2, XR in XR'. injection XR' as E3.
      apply Nat.add_cancel_l in E3. auto. }
    assert (Done : (forall f, o <> Deliver f) -> m_got o out = [] -> (o = ReceiveM id -> out = OM MWaiting -> skipn pos' arr' = []) ->
      (o = ReceiveM id -> length (skipn pos arr) <= cap -> forall n, out <> OM (MLagged n)) -> arr' = arr /\ pos' = pos ->
      ((o = ReceiveM id -> forall n, out <> OM (MLagged n)) -> m_got o out ++ skipn pos' arr' = skipn pos arr ++ arrivals k [o]) /\
      (o = ReceiveM id -> out = OM MWaiting -> skipn pos' arr' = []) /\
      (o = ReceiveM id -> length (skipn pos arr) <= cap -> forall n, out <> OM (MLagged n)) /\ pos' <= length arr').
    { intros E1 E2 E3 E4 [-> ->]. rewrite E2. cbn [app]. split; [|auto 6]. intros _.
      destruct o; cbn [arrivals flat_map app]; rewrite ?app_nil_r; auto. destruct (E1 f eq_refl). }
    assert (CLt : c < length (s_bcasts s)) by (apply nth_error_Some; congruence).
    assert (RLt : id < length (s_mrxs s)) by (apply nth_error_Some; congruence).
    assert (HR : has_receiver c (s_mrxs s) = true).
    { unfold has_receiver. apply existsb_exists. eexists. split; [apply nth_error_In with (n := id); exact XR|]. cbn. now rewrite Nat.eqb_refl. }
    assert (SubX : forall legacy k0 d s1 r, subscribe_mpsc legacy k0 d s = (s1, r) -> s_bcasts s1 = s_bcasts s /\ s_mrxs s1 = s_mrxs s).
    { intros legacy k0 d s1 r E. apply sub_mpsc_cases in E. destruct E as [(-> & _)|(_ & _ & -> & l & -> & E)]; auto. }
    unfold sub_step in H. destruct o.
    - destruct (blocked s); [discriminate|]. destruct (subscribe_mpsc false k0 depth s) as [s1 r] eqn:E. injection H as <- <-.
      destruct (SubX _ _ _ _ _ E) as [G1 G2]. apply Done; try discriminate; auto. apply Quiet; congruence.
    - destruct (blocked s); [discriminate|]. destruct (subscribe_mpsc true k0 depth s) as [s1 r] eqn:E. injection H as <- <-.
      destruct (SubX _ _ _ _ _ E) as [G1 G2]. apply Done; try discriminate; auto. apply Quiet; congruence.
    - destruct (blocked s); [discriminate|]. destruct (subscribe_multi k0 depth s) as [s1 r] eqn:E. injection H as <- <-.
      apply Done; try discriminate; auto. unfold subscribe_multi in E. destruct (s_stopped s); [injection E as <- <-; auto|].
      destruct (find _ _) as [[k' c']|].
      + injection E as <- <-. apply Quiet; cbn [s_bcasts s_mrxs]; auto. rewrite nth_error_app1; auto.
      + destruct depth; injection E as <- <-; auto. apply Quiet; cbn [s_bcasts s_mrxs]; rewrite nth_error_app1; auto.
    - (* Deliver *)
      destruct (blocked s || s_stopped s)%bool; [discriminate|].
      destruct (deliver nw f s) as [s1 dl] eqn:E. injection H as <- <-.
      rewrite deliver_eq in E. cbv zeta in E. destruct (deliver_mul f s) as [[bs h1] rm] eqn:DM. unfold deliver_mul in DM.
      assert (Eb : s_bcasts s1 = bs /\ s_mrxs s1 = s_mrxs s).
      { destruct (find (key_matches (hdr_key (f_hdr f))) (exclusive_list s)) as [[k' c']|].
        - destruct (mpsc_try_send c' f (s_chans s)) as [chans r]. destruct r; [|destruct nw|]; injection E as <- <-; auto.
        - injection E as <- <-; auto. }
      destruct Eb as [Eb Er]. rewrite Eb in XC'. rewrite Er, XR in XR'. injection XR' as Ep. apply Nat.add_cancel_l in Ep. subst pos'.
      cbn [m_got app arrivals flat_map].
      enough (arr' = arr ++ (if of_topic k f then [f] else [])) as ->.
      { split; [|split; [discriminate|split; [discriminate|rewrite app_length; lia]]]. intros _.
        rewrite app_nil_r. rewrite skipn_app. f_equal. replace (pos - length arr) with 0 by lia. reflexivity. }
      destruct (of_topic k f) eqn:OT.
      + assert (F : find (key_matches (hdr_key (f_hdr f))) (broadcast_list s) = Some (k, c)).
        { apply find_unique; auto. intros [k' i'] Y M. rewrite key_matches_topic in M.
          assert (k' = k) by (apply (NC f k'); auto; [now left|eauto]). subst k'.
          f_equal. eapply nodup_fst_in; eauto. apply (i_bkeys _ _ I). }
        rewrite F in DM. unfold bcast_send in DM. rewrite HR, XC in DM. injection DM as <- <- <-. cbn [b_cap b_log] in *.
        rewrite set_nth_same in XC' by auto. injection XC' as E'. rewrite <- app_assoc in E'. apply app_inv_head in E'. auto.
      + rewrite app_nil_r. enough (nth_error bs c = nth_error (s_bcasts s) c) as G.
        { rewrite G, XC in XC'. injection XC' as E'. apply app_inv_head in E'. auto. }
        destruct (find _ _) as [[k' c']|] eqn:F; [|injection DM as <- <- <-; auto].
        apply find_some in F. destruct F as [F M]. rewrite key_matches_topic in M.
        assert (NE : c' <> c). { intros ->. assert (k' = k) by (eapply nodup_snd_in; eauto; apply (i_bids _ _ I)). subst. congruence. }
        unfold bcast_send in DM. destruct (has_receiver c' (s_mrxs s)); [|injection DM as <- <- <-; auto].
        destruct (nth_error (s_bcasts s) c'); injection DM as <- <- <-; auto. rewrite set_nth_other; auto.
    - (* Unblock *)
      destruct (unblock w s) as [s1|] eqn:E; [|discriminate]. injection H as <- <-. unfold unblock in E.
      destruct (s_blocked s) as [[[c' f] rm]|] eqn:Bk; [|discriminate].
      apply Done; try discriminate; auto. destruct (mpsc_try_send c' f (s_chans s)) as [chans r].
      destruct w, r; try discriminate; injection E as <-; auto.
    - destruct (x_alive id0 s); [|discriminate]. destruct (recv_exclusive id0 s) as [s1 r] eqn:E. injection H as <- <-.
      apply Done; try discriminate; auto. unfold recv_exclusive in E. destruct (nth_error (s_chans s) id0) as [ch|]; [|injection E as <- <-; auto].
      destruct (m_queue ch); [destruct (connected id0 (exclusive_list s)); injection E as <- <-; auto|].
      injection E as <- <-. auto.
    - (* ReceiveM *)
      destruct (m_alive id0 s) eqn:MA; [|discriminate]. destruct (recv_multi id0 s) as [s1 r] eqn:E. injection H as <- <-.
      unfold recv_multi in E. destruct (Nat.eqb_spec id0 id) as [->|NE].
      + rewrite XR in E. cbn [r_chan r_next r_alive] in E. rewrite XC in E. cbn [b_log b_cap] in E. rewrite app_length in E.
        destruct (Nat.ltb_spec (length pre + pos) (length pre + length arr - cap)) as [L|L].
        * injection E as <- <-. split; [intros G; destruct (G eq_refl _ eq_refl)|]. split; [discriminate|].
          split; [intros _; rewrite skipn_length; lia|]. cbn [s_bcasts s_mrxs] in *. rewrite XC in XC'. injection XC' as E'. apply app_inv_head in E'. subst arr'.
          rewrite set_nth_same in XR' by auto. injection XR' as E2. lia.
        * rewrite nth_error_app2 in E by lia. replace (length pre + pos - length pre) with pos in E by lia.
          destruct (nth_error arr pos) as [f|] eqn:N.
          -- injection E as <- <-. cbn [s_bcasts s_mrxs] in *. rewrite XC in XC'. injection XC' as E'. apply app_inv_head in E'. subst arr'.
             rewrite set_nth_same in XR' by auto. injection XR' as E2. assert (pos' = S pos) by lia. subst pos'.
             cbn [m_got arrivals flat_map app]. rewrite Nat.eqb_refl, app_nil_r.
             split; [intros _; symmetry; apply skipn_nth; exact N|]. split; [discriminate|]. split; [discriminate|]. apply nth_error_Some. congruence.
          -- assert (C : connected c (broadcast_list s) = true) by (apply connected_iff; eauto). rewrite C in E. injection E as <- <-.
             destruct Quiet as [-> ->]; auto. apply nth_error_None in N. apply Done; auto; try discriminate.
             intros _ _. apply skipn_all2. auto.
      + assert (G : s_bcasts s1 = s_bcasts s /\ nth_error (s_mrxs s1) id = nth_error (s_mrxs s) id).
        { destruct (nth_error (s_mrxs s) id0) as [rx|]; [|injection E as <- <-; auto].
          destruct (nth_error (s_bcasts s) (r_chan rx)); [|injection E as <- <-; auto].
          destruct (_ <? _); [injection E as <- <-; cbn [s_bcasts s_mrxs]; rewrite set_nth_other; auto|].
          destruct (nth_error _ (r_next rx)); [injection E as <- <-; cbn [s_bcasts s_mrxs]; rewrite set_nth_other; auto|].
          destruct (connected (r_chan rx) (broadcast_list s)); injection E as <- <-; auto. }
        destruct G as [G1 G2]. apply Done; try discriminate; try (intros [= ->]; congruence).
        { destruct r; cbn [m_got]; auto. now destruct (Nat.eqb_spec id0 id). }
        { apply Quiet; auto. now rewrite G1. }
    - destruct (x_alive id0 s); [|discriminate]. injection H as <- <-. apply Done; try discriminate; auto.
      unfold drop_exclusive in *. destruct (nth_error (s_chans s) id0); auto.
    - destruct (m_alive id0 s); [|discriminate]. injection H as <- <-. apply Done; try discriminate; auto.
      assert (id0 <> id) by (intros ->; apply U2; now left). unfold drop_multi in *.
      destruct (nth_error (s_mrxs s) id0); auto. apply Quiet; cbn [s_bcasts s_mrxs]; auto. rewrite set_nth_other; auto.
    - exfalso. apply U1. now left.
  Qed.
End M.

(** ** The client *)
Section Client.
  Variable cfg : Config.
  Notation step := (step cfg).
  Notation run := (run cfg).
  Notation nw := (cfg_no_wait cfg).

  Definition op_of (l : Label) : option SubOp :=
    match l with
    | LSub o => Some o
    | LUnblock w => Some (Unblock w)
    | LRecv b => match take_from_slice b with Done (Some (h, x)) => Some (Deliver (MkFrame h x)) | _ => None end
    | _ => None
    end.

  Lemma alive_back l c c1 e : step l c = Some (c1, e) -> c_in_alive c1 = true -> c_in_alive c = true.
  Proof.
    intros H A. destruct l; cbn [ClientModel.step] in H;
      repeat match type of H with context [match ?x with _ => _ end] => destruct x eqn:?; try discriminate end;
      try injection H as <- <-; try exact A; try discriminate A; auto; unfold adopt in A; try (destruct (negb _); exact A).
    cbn in A. congruence.
  Qed.

  Lemma client_sub_step l c c1 e : step l c = Some (c1, e) -> c_in_alive c1 = true ->
    match op_of l with
    | Some o => exists out, sub_step nw o (c_subs c) = Some (c_subs c1, out) /\
        match l with LSub _ => user_op o = true /\ e = [EvSub out] | _ => user_op o = false end
    | None => c_subs c1 = c_subs c
    end.
  Proof.
    intros H A. pose proof (alive_back _ _ _ _ H A) as A0. pose proof (flow_step_other cfg _ _ _ _ H) as O.
    destruct l; try exact O; cbn [ClientModel.step op_of] in *.
    - destruct (c_offer c); [discriminate|]. destruct (negb (c_in_alive c) || blocked (c_subs c))%bool; [discriminate|].
      destruct (take_from_slice bytes) as [[[h x]|]|]; [|injection H as <- <-; reflexivity|discriminate].
      destruct (sub_step nw (Deliver (MkFrame h x)) (c_subs c)) as [[s out]|]; [|discriminate]. exists out.
      assert (c_subs c1 = s) as ->. { destruct out; try (injection H as <- <-; reflexivity). destruct d; injection H as <- <-; reflexivity. }
      auto.
    - destruct (sub_step nw (Unblock w) (c_subs c)) as [[s out]|]; [|discriminate]. exists out.
      destruct (c_in_alive c); [|discriminate]. injection H as <- <-. auto.
    - destruct (c_offer c); [discriminate|]. destruct (negb (c_in_alive c) || blocked (c_subs c))%bool; [discriminate|]. injection H as <- <-. discriminate A.
    - destruct (c_stopped c && c_in_alive c)%bool; [|discriminate]. injection H as <- <-. discriminate A.
    - rewrite A0 in H. discriminate.
    - destruct (user_op o); [|discriminate]. destruct (sub_step nw o (c_subs c)) as [[s out]|]; [|discriminate]. injection H as <- <-. eauto.
  Qed.

  Lemma alive_fwd l c c1 e : step l c = Some (c1, e) -> l <> LInFail -> l <> LInEnd -> c_in_alive c1 = c_in_alive c.
  Proof.
    intros H N1 N2. destruct l; try congruence; cbn [ClientModel.step] in H;
      repeat match type of H with context [match ?x with _ => _ end] => destruct x eqn:?; try discriminate end;
      try injection H as <- <-; auto; unfold adopt; try (destruct (negb _); reflexivity).
  Qed.
  Lemma run_alive ls : forall c c2 es, run ls c = Some (c2, es) -> still_receiving ls -> c_in_alive c2 = c_in_alive c.
  Proof.
    induction ls as [|l ls IH]; intros c c2 es R [N1 N2]; cbn [ClientModel.run] in R. { injection R as <- <-. auto. }
    destruct (step l c) as [[c1 e]|] eqn:S; [|discriminate]. destruct (run ls c1) as [[c3 es']|] eqn:R1; [|discriminate]. injection R as <- <-.
    rewrite (IH _ _ _ R1). 2:{ split; intros Y; [apply N1|apply N2]; right; auto. }
    eapply alive_fwd; eauto; intros ->; [apply N1|apply N2]; left; auto.
  Qed.

  Lemma run_alive_back ls : forall c c2 es, run ls c = Some (c2, es) -> c_in_alive c2 = true -> c_in_alive c = true.
  Proof.
    induction ls as [|l ls IH]; intros c c2 es R A; cbn [ClientModel.run] in R. { injection R as <- <-. auto. }
    destruct (step l c) as [[c1 e]|] eqn:S; [|discriminate]. destruct (run ls c1) as [[c3 es']|] eqn:R1; [|discriminate]. injection R as <- <-.
    eapply alive_back; eauto.
  Qed.

  Lemma given_cons l e cl es id : given (l :: cl) (e :: es) id =
    match l, e with LSub (ReceiveX i), [EvSub (OX (XGot f))] => if i =? id then [f] else [] | _, _ => [] end ++ given cl es id.
  Proof. unfold given. cbn [combine flat_map]. f_equal. Qed.
  Lemma given_multi_cons l e cl es id : given_multi (l :: cl) (e :: es) id =
    match l, e with LSub (ReceiveM i), [EvSub (OM (MGot f))] => if i =? id then [f] else [] | _, _ => [] end ++ given_multi cl es id.
  Proof. unfold given_multi. cbn [combine flat_map]. f_equal. Qed.

  Variables (k : Key8) (id : nat) (keys : list Key8).
  Definition distinct (fs : list RpcFrame) : Prop := forall f k', In f fs -> of_topic k f = true -> In k' keys -> of_topic k' f = true -> k' = k.

  Lemma arrived_cons l cl : arrived (l :: cl) = match l with LRecv b => frame_of b | _ => [] end ++ arrived cl.
  Proof. reflexivity. Qed.
  Lemma op_arrivals l : match op_of l with Some o => match l with LSub _ => user_op o = true | _ => True end | None => True end ->
    filter (of_topic k) (match l with LRecv b => frame_of b | _ => [] end) = match op_of l with Some o => arrivals k [o] | None => [] end.
  Proof.
    destruct l; cbn [op_of]; intros U; auto.
    - unfold frame_of. destruct (take_from_slice bytes) as [[[h x]|]|]; auto. cbn [filter arrivals flat_map]. destruct (of_topic k _); reflexivity.
    - destruct o; auto; discriminate.
  Qed.
  Lemma op_conf l : distinct (match l with LRecv b => frame_of b | _ => [] end) ->
    match op_of l with Some o => match l with LSub _ => user_op o = true | _ => True end | None => True end ->
    match op_of l with Some o => no_confusion k keys [o] | None => True end.
  Proof.
    intros D U. destruct (op_of l) as [o|] eqn:E; auto. intros f k' [->|[]] T I T'. apply (D f k'); auto.
    destruct l; cbn [op_of] in E; try discriminate.
    unfold frame_of. destruct (take_from_slice bytes) as [[[h x]|]|]; try discriminate. injection E as ->. left. reflexivity.
  Qed.
  Lemma op_topics l o : op_of l = Some o -> incl (exclusive_keys [o]) (topics_subscribed [l]) /\ incl (multi_keys [o]) (topics_subscribed [l]).
  Proof.
    intros E. destruct l; cbn [op_of] in E; try discriminate.
    2:{ injection E as <-. split; intros x []. } 2:{ injection E as ->. destruct o; split; intros x Hx; cbn in *; tauto. }
    - destruct (take_from_slice bytes) as [[[h x]|]|]; try discriminate. injection E as <-. split; intros ? [].
  Qed.
  Lemma topics_cons l cl : topics_subscribed (l :: cl) = topics_subscribed [l] ++ topics_subscribed cl.
  Proof. unfold topics_subscribed. change (l :: cl) with ([l] ++ cl). rewrite flat_map_app. reflexivity. Qed.

  (** What an exclusive subscription holds accounts for what came and was not given. *)
  Lemma x_account depth cl : forall c c2 es tr q w mine,
    run cl c = Some (c2, es) -> c_in_alive c2 = true -> Inv tr (c_subs c) -> XSim k id depth keys (c_subs c) q w mine ->
    incl (topics_subscribed cl) keys -> distinct (arrived cl) -> kept cl k id ->
    patient cl cfg \/ (w = None /\ forall n, length q + length (filter (of_topic k) (arrived (firstn n cl))) <= length (given (firstn n cl) (firstn n es) id) + depth) ->
    exists tr' q' w' mine', Inv tr' (c_subs c2) /\ XSim k id depth keys (c_subs c2) q' w' mine' /\
      given cl es id ++ q' ++ of_opt w' = q ++ of_opt w ++ filter (of_topic k) (arrived cl) /\
      (w = None /\ (forall n, length q + length (filter (of_topic k) (arrived (firstn n cl))) <= length (given (firstn n cl) (firstn n es) id) + depth) -> w' = None) /\
      (found_empty cl es id -> q' = []).
  Proof.
    induction cl as [|l cl IH]; intros c c2 es tr q w mine R A I X Hk D [K1 K2] G; cbn [ClientModel.run] in R.
    - injection R as <- <-. exists tr, q, w, mine. split; auto. split; auto. cbn [arrived flat_map filter given combine app]. rewrite app_nil_r.
      split; auto. split. { intros [Gw _]; auto. } intros (cl0 & es0 & E & _). destruct cl0; discriminate.
    - destruct (step l c) as [[c1 e]|] eqn:S; [|discriminate]. destruct (run cl c1) as [[c3 es']|] eqn:R1; [|discriminate]. injection R as <- <-.
      pose proof (run_alive_back _ _ _ _ R1 A) as A1. pose proof (client_sub_step _ _ _ _ S A1) as CS.
      rewrite topics_cons in Hk. apply incl_app_inv in Hk as [Hk1 Hk2].
      rewrite arrived_cons in D.
      assert (D1 : distinct (match l with LRecv b => frame_of b | _ => [] end)). { intros f k' Hf. apply D. apply in_app_iff. auto. }
      assert (D2 : distinct (arrived cl)). { intros f k' Hf. apply D. apply in_app_iff. auto. }
      assert (K' : kept cl k id). { split; [intros Y; apply K1; right; auto|intros d Y; apply (K2 d); right; auto]. }
      assert (Up : match op_of l with Some o => match l with LSub _ => user_op o = true | _ => True end | None => True end).
      { destruct (op_of l); auto. destruct CS as (out & _ & CS). destruct l; auto. apply CS. }
      pose proof (op_arrivals l Up) as OA. pose proof (op_conf l D1 Up) as OC.
      assert (Key : exists tr1 q1 w1 mine1, Inv tr1 (c_subs c1) /\ XSim k id depth keys (c_subs c1) q1 w1 mine1 /\
        match l, e with LSub (ReceiveX i), [EvSub (OX (XGot f))] => if i =? id then [f] else [] | _, _ => [] end ++ q1 ++ of_opt w1 =
          q ++ of_opt w ++ filter (of_topic k) (match l with LRecv b => frame_of b | _ => [] end) /\
        (w = None /\ (forall n, length q + length (filter (of_topic k) (arrived (firstn n (l :: cl)))) <= length (given (firstn n (l :: cl)) (firstn n (e :: es')) id) + depth) -> w1 = None) /\
        (l = LSub (ReceiveX id) -> e = [EvSub (OX XWaiting)] -> q1 = [])).
      { rewrite OA. destruct (op_of l) as [o|] eqn:Eo.
        2:{ rewrite CS. exists tr, q, w, mine. split; auto. split; auto. split.
            - destruct l; try discriminate; rewrite app_nil_r; reflexivity.
            - split; [tauto|]. intros ->. discriminate. }
        destruct CS as (out & SS & Ce). destruct (op_topics _ _ Eo) as [T1 _].
        assert (Un : x_undisturbed k id [o]).
        { split; [|split].
          - intros [->|[]]. destruct l; try discriminate. { cbn in Eo. destruct (take_from_slice bytes) as [[[]|]|]; discriminate. }
          - intros [->|[]]. destruct l; try discriminate. injection Eo as ->. apply K1. left. auto.
          - intros d [->|[]]. destruct l; try discriminate. injection Eo as ->. apply (K2 d). left. auto. }
        assert (Ke : incl (exclusive_keys [o]) keys) by (eapply incl_tran; eauto).
        destruct (x_step nw k id depth keys tr _ _ _ _ o _ out I X Ke OC Un SS) as (q1 & w1 & mine1 & X1 & _).
        assert (Full : forall f, o = Deliver f -> of_topic k f = true ->
          w = None /\ (forall n, length q + length (filter (of_topic k) (arrived (firstn n (l :: cl)))) <= length (given (firstn n (l :: cl)) (firstn n (e :: es')) id) + depth) -> length q < depth).
        { intros f -> T [-> G0]. clear G. rename G0 into G. specialize (G 1). cbn [firstn] in G.
          rewrite arrived_cons, given_cons in G. cbn [arrived flat_map] in G. rewrite app_nil_r, OA in G. cbn [arrivals flat_map] in G.
          rewrite T in G. cbn [app length] in G. destruct l; try discriminate; cbn in G; lia. }
        destruct (x_conserve nw k id depth keys tr _ _ _ _ o _ q1 w1 mine1 out I X X1 OC Un SS) as (C1 & C2 & C3 & C4).
        { intros f Ef T N. destruct G as [[P _]|G]; [congruence|eauto]. }
        { intros ->. destruct G as [[_ G]|[G _]]; auto. destruct G. left. destruct l; try discriminate.
          - cbn in Eo. destruct (take_from_slice bytes) as [[[]|]|]; discriminate.
          - injection Eo as ->. reflexivity. }
        exists (tr ++ [(o, out)]), q1, w1, mine1. split; [eapply inv_step; eauto|]. split; auto. split; [|split].
        - rewrite <- C1. f_equal. destruct l; try (injection Eo as <-); try discriminate; cbn [x_got]; auto.
          + cbn in Eo. destruct (take_from_slice bytes) as [[[]|]|]; try discriminate. injection Eo as <-. reflexivity.
          + destruct Ce as [_ ->]. destruct o0; auto; destruct out; auto; destruct r; auto.
        - intros [Gw Gk]. destruct (C4 Gw) as [->|(f & Ef)]; auto.
          destruct (of_topic k f) eqn:T.
          + eapply C3; eauto.
          + subst o w. cbn [arrivals flat_map x_got app] in C1. rewrite T in C1. cbn [of_opt app] in C1.
            destruct w1 as [f1|]; auto. exfalso.
            pose proof (xsim_w k id depth keys _ _ _ _ X1) as W1. destruct X1 as [_ _ _ B1]. unfold blockrel in B1.
            cbn [sub_step] in SS. destruct (blocked (c_subs c) || s_stopped (c_subs c))%bool; [discriminate|].
            destruct (deliver nw f (c_subs c)) as [s1 dl] eqn:Dl. injection SS as Es _. rewrite <- Es in *.
            rewrite deliver_eq in Dl. cbv zeta in Dl. destruct (deliver_mul f (c_subs c)) as [[bs h1] rm].
            destruct (find (key_matches (hdr_key (f_hdr f))) (exclusive_list (c_subs c))) as [[k' c']|] eqn:F.
            * apply find_some in F. destruct F as [F M]. rewrite key_matches_topic in M.
              assert (NE : c' <> id). { intros ->. destruct X as [_ XH _ _]. assert (k' = k) by (eapply nodup_snd_in; eauto; apply (i_ids _ _ I)). subst. congruence. }
              destruct (mpsc_try_send c' f (s_chans (c_subs c))) as [chans r].
              destruct r; [|destruct nw|]; injection Dl as <- <-; cbn [finish s_blocked] in W1; try discriminate.
              destruct (Nat.eqb_spec c' id); congruence.
            * injection Dl as <- <-. cbn [finish s_blocked] in W1. discriminate.
        - intros -> ->. injection Eo as <-. destruct Ce as [_ [= <-]]. auto. }
      destruct Key as (tr1 & q1 & w1 & mine1 & I1 & X1 & C1 & W1 & E1).
      assert (Next : w = None /\ (forall n, length q + length (filter (of_topic k) (arrived (firstn n (l :: cl)))) <= length (given (firstn n (l :: cl)) (firstn n (e :: es')) id) + depth) ->
        w1 = None /\ forall n, length q1 + length (filter (of_topic k) (arrived (firstn n cl))) <= length (given (firstn n cl) (firstn n es') id) + depth).
      { intros G0. split; auto. pose proof (W1 G0) as Ew. destruct G0 as [Gw G0]. intros n. specialize (G0 (Datatypes.S n)). cbn [firstn] in G0. rewrite arrived_cons, given_cons, filter_app, !app_length in G0.
        apply (f_equal (@length _)) in C1. rewrite !app_length in C1. subst w w1. cbn [of_opt length] in C1. lia. }
      destruct (IH _ _ _ _ _ _ _ R1 A I1 X1 Hk2 D2 K') as (tr' & q' & w' & mine' & I' & X' & C' & W' & E').
      { destruct G as [[P1 P2]|G]; [|auto]. left. split; auto. intros Y. apply P2. right. auto. }
      exists tr', q', w', mine'. split; auto. split; auto. split; [|split].
      + rewrite given_cons, arrived_cons, filter_app. rewrite <- app_assoc, C'. rewrite (app_assoc q1), app_assoc, C1. rewrite <- !app_assoc. reflexivity.
      + auto.
      + intros (cl0 & es0 & El & Ee). destruct cl0 as [|l0 cl0].
        * cbn in El. injection El as -> ->. cbn in R1. injection R1 as <- <-. destruct es0 as [|e0 es0]; [|destruct es0; discriminate].
          injection Ee as ->. specialize (E1 eq_refl eq_refl). subst q1.
          destruct X1 as [_ _ Y1 _]. destruct X' as [_ _ Y2 _]. rewrite Y1 in Y2. injection Y2 as <-. reflexivity.
        * cbn in El. injection El as -> ->. destruct es0 as [|e0 es0]. { cbn in Ee. injection Ee as -> ->. apply run_length in R1. rewrite app_length in R1. cbn in R1. lia. }
          injection Ee as -> ->. apply E'. exists cl0, es0. auto.
  Qed.

  (** The same for a broadcast subscription. *)
  Lemma m_account b cap pre cl : forall c c2 es tr arr pos,
    run cl c = Some (c2, es) -> c_in_alive c2 = true -> Inv tr (c_subs c) -> MSim k id b cap pre keys (c_subs c) arr pos -> pos <= length arr ->
    incl (topics_subscribed cl) keys -> distinct (arrived cl) -> kept_multi cl id ->
    never_lagged cl es id \/ (forall n, length (skipn pos arr) + length (filter (of_topic k) (arrived (firstn n cl))) <= length (given_multi (firstn n cl) (firstn n es) id) + cap) ->
    exists tr' arr' pos', Inv tr' (c_subs c2) /\ MSim k id b cap pre keys (c_subs c2) arr' pos' /\ pos' <= length arr' /\
      given_multi cl es id ++ skipn pos' arr' = skipn pos arr ++ filter (of_topic k) (arrived cl) /\
      never_lagged cl es id /\ never_closed cl es id /\ (found_empty_multi cl es id -> skipn pos' arr' = []).
  Proof.
    induction cl as [|l cl IH]; intros c c2 es tr arr pos R A I X Hp Hk D K G; cbn [ClientModel.run] in R.
    - injection R as <- <-. exists tr, arr, pos. split; auto. split; auto. split; auto. cbn [arrived flat_map filter given_multi combine app]. rewrite app_nil_r.
      split; auto. split. { intros n []. } split. { intros []. } intros (cl0 & es0 & E & _). destruct cl0; discriminate.
    - destruct (step l c) as [[c1 e]|] eqn:Sx; [|discriminate]. destruct (run cl c1) as [[c3 es']|] eqn:R1; [|discriminate]. injection R as <- <-.
      pose proof (run_alive_back _ _ _ _ R1 A) as A1. pose proof (client_sub_step _ _ _ _ Sx A1) as CS.
      rewrite topics_cons in Hk. apply incl_app_inv in Hk as [Hk1 Hk2].
      rewrite arrived_cons in D.
      assert (D1 : distinct (match l with LRecv b => frame_of b | _ => [] end)). { intros f k' Hf. apply D. apply in_app_iff. auto. }
      assert (D2 : distinct (arrived cl)). { intros f k' Hf. apply D. apply in_app_iff. auto. }
      assert (K' : kept_multi cl id). { intros Y; apply K; right; auto. }
      assert (Up : match op_of l with Some o => match l with LSub _ => user_op o = true | _ => True end | None => True end).
      { destruct (op_of l); auto. destruct CS as (out & _ & CS). destruct l; auto. apply CS. }
      pose proof (op_arrivals l Up) as OA. pose proof (op_conf l D1 Up) as OC.
      assert (Key : exists tr1 arr1 pos1, Inv tr1 (c_subs c1) /\ MSim k id b cap pre keys (c_subs c1) arr1 pos1 /\ pos1 <= length arr1 /\
        match l, e with LSub (ReceiveM i), [EvSub (OM (MGot f))] => if i =? id then [f] else [] | _, _ => [] end ++ skipn pos1 arr1 =
          skipn pos arr ++ filter (of_topic k) (match l with LRecv b => frame_of b | _ => [] end) /\
        (forall n, (l, e) <> (LSub (ReceiveM id), [EvSub (OM (MLagged n))])) /\
        (l, e) <> (LSub (ReceiveM id), [EvSub (OM MClosed)]) /\
        (l = LSub (ReceiveM id) -> e = [EvSub (OM MWaiting)] -> skipn pos1 arr1 = [])).
      { rewrite OA. destruct (op_of l) as [o|] eqn:Eo.
        2:{ rewrite CS. exists tr, arr, pos. split; auto. split; auto. split; auto. split.
            - destruct l; try discriminate; rewrite app_nil_r; reflexivity.
            - split; [|split; [|intros ->; discriminate]]. { intros n [= -> ->]. discriminate. } intros [= -> ->]. discriminate. }
        destruct CS as (out & SS & Ce). destruct (op_topics _ _ Eo) as [_ T1].
        assert (Un : m_undisturbed id [o]).
        { split.
          - intros [->|[]]. destruct l; try discriminate. { cbn in Eo. destruct (take_from_slice bytes) as [[[]|]|]; discriminate. }
          - intros [->|[]]. destruct l; try discriminate. injection Eo as ->. apply K. left. auto. }
        assert (Ke : incl (multi_keys [o]) keys) by (eapply incl_tran; eauto).
        destruct (m_step nw k id b cap pre keys tr _ _ _ o _ out I X Ke OC Un SS) as (arr1 & pos1 & X1 & _).
        destruct (m_conserve nw k id b cap pre keys tr _ _ _ o _ arr1 pos1 out Hp I X X1 OC Un SS) as (C1 & C2 & C3 & C4).
        assert (NL : forall n, (l, e) <> (LSub (ReceiveM id), [EvSub (OM (MLagged n))])).
        { intros n [= -> ->]. injection Eo as <-. destruct Ce as [_ [= <-]]. destruct G as [G|G].
          - apply (G n). left. auto.
          - specialize (G 0). cbn in G. apply (C3 eq_refl ltac:(lia) n). reflexivity. }
        exists (tr ++ [(o, out)]), arr1, pos1. split; [eapply inv_step; eauto|]. split; auto. split; auto. split; [|split; [auto|split]].
        - rewrite <- C1.
          + f_equal. destruct l; try (injection Eo as <-); try discriminate; cbn [m_got]; auto.
            * cbn in Eo. destruct (take_from_slice bytes) as [[[]|]|]; try discriminate. injection Eo as <-. reflexivity.
            * destruct Ce as [_ ->]. destruct o0; auto; destruct out; auto; destruct r; auto.
          + intros -> n ->. destruct l; try discriminate.
            injection Eo as ->. destruct Ce as [_ ->]. apply (NL n). reflexivity.
        - intros [= -> ->]. injection Eo as <-. destruct Ce as [_ [= <-]]. exact (m_open nw k id b cap pre keys _ _ _ _ _ X SS eq_refl).
        - intros -> ->. injection Eo as <-. destruct Ce as [_ [= <-]]. auto. }
      destruct Key as (tr1 & arr1 & pos1 & I1 & X1 & P1 & C1 & W1 & Z1 & E1).
      destruct (IH _ _ _ _ _ _ R1 A I1 X1 P1 Hk2 D2 K') as (tr' & arr' & pos' & I' & X' & P' & C' & W' & Z' & E').
      { destruct G as [G|G]. { left. intros n Y. apply (G n). right. auto. }
        right. intros n. specialize (G (Datatypes.S n)). cbn [firstn] in G. rewrite arrived_cons, given_multi_cons, filter_app, !app_length in G.
        apply (f_equal (@length _)) in C1. rewrite !app_length in C1. lia. }
      exists tr', arr', pos'. split; auto. split; auto. split; auto. split; [|split; [|split]].
      + rewrite given_multi_cons, arrived_cons, filter_app. rewrite <- app_assoc, C'. rewrite app_assoc, C1. rewrite <- !app_assoc. reflexivity.
      + intros n [Y|Y]; [apply (W1 n); auto|apply (W' n); auto].
      + intros [Y|Y]; [apply Z1; auto|apply Z'; auto].
      + intros (cl0 & es0 & El & Ee). destruct cl0 as [|l0 cl0].
        * cbn in El. injection El as -> ->. cbn in R1. injection R1 as <- <-. destruct es0 as [|e0 es0]; [|destruct es0; discriminate].
          injection Ee as ->. specialize (E1 eq_refl eq_refl). rewrite E1 in C'. cbn in C'. exact C'.
        * cbn in El. injection El as -> ->. destruct es0 as [|e0 es0]. { cbn in Ee. injection Ee as -> ->. apply run_length in R1. rewrite app_length in R1. cbn in R1. lia. }
          injection Ee as -> ->. apply E'. exists cl0, es0. auto.
  Qed.
End Client.
