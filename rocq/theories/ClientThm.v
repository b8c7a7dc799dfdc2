(** Theorems about requests of the host client: C30, C31, C32, C33. *)
From Coq Require Import NArith List Bool Arith Lia Permutation.
From Verif Require Import KeyModel HeaderModel KeySpec HeaderSpec KeyProof HeaderProof SubModel SubSpec SubProof SubThm3 ClientModel ClientSpec ClientProof ClientHist ClientMore.
Import ListNotations.

(** ** C30 A response only completes the request it answers *)

(** Every result with which a request completes was received; each received frame
    is used up by one completion; the frame answers that very request: same sequence
    number, and key equal to the reply key (for a reply) or the error key (for an
    error) at the shorter of the length received and a key length in use. *)
Theorem C30_answer_matches :
  forall cfg ls c es r f,
    run cfg ls client_new = Some (c, es) ->
    (In (r, GotReply f) (results es) ->
     exists sent resp kk, nth_error (issued 0 ls) r = Some (sent, resp) /\ In f (arrived ls) /\
       kind_seen es kk /\ answers_to kk resp (hdr_seq (f_hdr sent)) f) /\
    (In (r, GotError f) (results es) ->
     exists sent resp kk, nth_error (issued 0 ls) r = Some (sent, resp) /\ In f (arrived ls) /\
       kind_seen es kk /\ answers_to kk (cfg_err_key cfg) (hdr_seq (f_hdr sent)) f).
Proof.
  intros cfg ls c es r f H.
  assert (Hin : forall res, In (r, res) (results es) -> res = GotReply f \/ res = GotError f -> In f (arrived ls)).
  { intros res Hr Hf. eapply mi_in; [exact (reach_used _ _ _ _ H)|]. unfold used. apply in_app_iff. left.
    unfold answers. apply in_flat_map. exists (r, res). split; auto. destruct Hf as [->| ->]; left; auto. }
  split; intros Hr.
  - destruct (reach_answer _ _ _ _ H _ _ Hr) as ([sent resp] & Hi & kk & K & A). exists sent, resp, kk.
    repeat split; auto; try apply A. eapply Hin; eauto.
  - destruct (reach_answer _ _ _ _ H _ _ Hr) as ([sent resp] & Hi & kk & K & A). exists sent, resp, kk.
    repeat split; auto; try apply A. eapply Hin; eauto.
Qed.
Print Assumptions C30_answer_matches.

(** Counting multiplicities, completions use received frames: no frame completes
    two requests. *)
Theorem C30_each_frame_once :
  forall cfg ls c es,
    run cfg ls client_new = Some (c, es) ->
    exists unused, Permutation (arrived ls) (answers es ++ unused).
Proof.
  intros cfg ls c es H. destruct (reach_used _ _ _ _ H) as [rest P]. unfold used in P.
  rewrite <- app_assoc in P. eauto.
Qed.
Print Assumptions C30_each_frame_once.

(** A request returns at most once. *)
Theorem C30_each_request_once :
  forall cfg ls c es,
    run cfg ls client_new = Some (c, es) -> NoDup (map fst (results es)).
Proof. intros cfg ls c es H. apply (reach_results _ _ _ _ H). Qed.
Print Assumptions C30_each_request_once.

(** ** C31 Responses may arrive in any order *)

Section C31.
  Variable cfg : Config.

  Lemma recv_offers bytes f c c1 e :
    frame_of bytes = [f] -> step cfg (LRecv bytes) c = Some (c1, e) ->
    (forall k id, In (k, id) (exclusive_list (c_subs c)) \/ In (k, id) (broadcast_list (c_subs c)) -> of_topic k f = false) ->
    c_offer c1 = Some f /\ c_reqs c1 = c_reqs c /\ c_waiters c1 = c_waiters c /\ e = [].
  Proof.
    unfold frame_of. cbn [ClientModel.step]. intros Hf H Hn. destruct (c_offer c); [discriminate|].
    destruct (_ || _)%bool; [discriminate|]. destruct (take_from_slice bytes) as [[[h b]|]|]; try discriminate.
    injection Hf as <-.
    destruct (sub_step _ _ _) as [[s [| d | | |]]|] eqn:E; try discriminate.
    { cbn in E. destruct (_ || _)%bool; [discriminate|]. destruct (deliver _ _ _). discriminate. }
    2-4: cbn in E; destruct (_ || _)%bool; [discriminate|]; destruct (deliver _ _ _); discriminate.
    assert (d = NotHandled) as ->.
    { apply (C41_offered_to_requests_iff _ _ _ _ _ E). split; intros; eapply Hn; eauto. }
    injection H as <- <-. auto.
  Qed.

  Definition other_live (c : Client) (r : nat) (f : RpcFrame) : Prop :=
    forall r' q', r' <> r -> nth_error (c_reqs c) r' = Some q' -> rq_pc q' <> PEnded ->
      seq_value (hdr_seq (f_hdr (rq_frame q'))) <> seq_value (hdr_seq (f_hdr f)).

  Lemma result_in l c c' e es r res : step cfg l c = Some (c', e) -> result_of e = Some (r, res) ->
    In (r, res) (results (e :: es)).
  Proof.
    intros H E. replace (e :: es) with ([e] ++ es) by reflexivity. rewrite results_app, (step_results _ _ _ _ _ H), E. left. auto.
  Qed.
  Lemma result_later e es r res : In (r, res) (results es) -> In (r, res) (results (e :: es)).
  Proof. intros H. replace (e :: es) with ([e] ++ es) by reflexivity. rewrite results_app, in_app_iff. auto. Qed.

  (** A registered request ends with Closed only when the client is closed. *)
  Lemma closed_stopped l c c' e r : step cfg l c = Some (c', e) -> FInv c -> result_of e = Some (r, Closed) -> c_stopped c' = true.
  Proof.
    intros H (F1 & _) E. pose proof (step_cstep _ _ _ _ _ H) as HC. rewrite E in HC.
    destruct (cstep_result_inv _ _ _ _ _ _ _ _ HC) as (q & Hq & _ & _ & _ & [->| ->]).
    - eapply step_stopped; eauto. cbn [ClientModel.step] in H. rewrite Hq in H. destruct (rq_pc q); try discriminate. destruct (c_stopped c); auto; discriminate.
    - eapply step_stopped; eauto. cbn [ClientModel.step] in H. rewrite Hq in H. destruct (rq_pc q); try discriminate.
      destruct (c_out_alive c); auto. cbn [negb] in H. destruct (length (c_out c) <? cfg_depth cfg); [|discriminate]. injection H as <- <-. discriminate.
  Qed.

  Definition outcome_for (r : nat) (f : RpcFrame) (c : Client) (es : list (list Ev)) : Prop :=
    In (r, GotReply f) (results es) \/
    (exists q', nth_error (c_reqs c) r = Some q' /\ rq_ok q' = Some f) \/
    (exists g, In (r, GotError g) (results es)) \/
    (In (r, Closed) (results es) /\ is_closed c = true).

  Lemma outcome_later r f c e es : outcome_for r f c es -> outcome_for r f c (e :: es).
  Proof.
    intros [H|[H|[(g & H)|(H & S)]]].
    - left. apply result_later. auto.
    - right. left. auto.
    - right. right. left. exists g. apply result_later. auto.
    - right. right. right. split; auto. apply result_later. auto.
  Qed.

  (** A result of a fully registered request. *)
  Lemma outcome_now l c c1 e c' es r q kk f ls : step cfg l c = Some (c1, e) -> CInv cfg c -> FInv c ->
    nth_error (c_reqs c) r = Some q -> rq_pc q = PReg kk \/ rq_pc q = PSent kk ->
    (forall g, rq_ok q = Some g -> g = f) ->
    run cfg ls c1 = Some (c', es) ->
    forall res, result_of e = Some (r, res) -> outcome_for r f c' (e :: es).
  Proof.
    intros H HI HF Hq Hp Hs Hrun res Er. pose proof (result_in _ _ _ _ es _ _ H Er) as Hin.
    pose proof (step_cstep _ _ _ _ _ H) as HC. rewrite Er in HC.
    destruct (cstep_result_inv _ _ _ _ _ _ _ _ HC) as (q1 & Hq1 & _ & _ & _ & Hres).
    rewrite Hq in Hq1. injection Hq1 as <-. destruct res.
    - destruct Hres as (_ & Ho). rewrite (Hs _ Ho) in Hin. left. auto.
    - right. right. left. eauto.
    - destruct Hres as ([] & k & _ & _ & Hk); destruct Hp; congruence.
    - right. right. right. split; auto. eapply run_stopped; eauto. eapply closed_stopped; eauto.
  Qed.

  Lemma run_held ls : forall c c' es r q kk f, run cfg ls c = Some (c', es) -> CInv cfg c -> FInv c ->
    nth_error (c_reqs c) r = Some q -> rq_pc q = PReg kk \/ rq_pc q = PSent kk -> rq_ok q = Some f ->
    ~ In (LCancel r) ls -> outcome_for r f c' es.
  Proof.
    induction ls as [|l ls IH]; intros c c' es r q kk f H HI HF Hq Hp Ho Hc.
    - cbn in H. injection H as <- <-. right. left. eauto.
    - cbn in H. destruct (step cfg l c) as [[c1 e]|] eqn:E; [|discriminate]. destruct (run cfg ls c1) as [[c2 e2]|] eqn:E2; [|discriminate].
      injection H as <- <-.
      assert (Hpe : rq_pc q <> PEnded) by (destruct Hp; congruence).
      destruct (step_running _ _ _ _ _ _ _ E HI (conj Hq Hpe)) as [(-> & _)|[(res & Hres & _)|(q' & Hr' & Hk & _)]].
      + exfalso. apply Hc. left. auto.
      + eapply outcome_now; eauto. intros g. congruence.
      + apply outcome_later. destruct Hk as (K1 & K2 & K3 & K4 & _). eapply (IH c1 c2 e2 r q' kk f); eauto.
        * eapply step_inv; eauto. * eapply finv_step; eauto. * apply Hr'.
        * destruct Hr' as [Hr1 Hr2]. destruct Hp as [Hp|Hp]; rewrite Hp in *.
          -- pose proof (K2 true _ eq_refl) as R. destruct (rq_pc q') eqn:Ep; cbn in R; try discriminate; injection R as ->; auto.
          -- right. apply K3. auto.
        * apply (K1 false). auto.
        * intros Hi. apply Hc. right. auto.
  Qed.

  Lemma run_offered ls : forall c c' es r q kk f, run cfg ls c = Some (c', es) -> CInv cfg c -> FInv c ->
    nth_error (c_reqs c) r = Some q -> rq_pc q = PReg kk \/ rq_pc q = PSent kk -> rq_ok q = None ->
    c_offer c = Some f ->
    header_eqb (ok_header q kk) (f_hdr f) = true -> header_eqb (err_header cfg q kk) (f_hdr f) = false ->
    other_live c r f ->
    (forall l1 l2 c1 e1, ls = l1 ++ l2 -> run cfg l1 c = Some (c1, e1) -> other_live c1 r f) ->
    ~ In (LCancel r) ls -> c_in_alive c' = true -> c_offer c' = None -> outcome_for r f c' es.
  Proof.
    induction ls as [|l ls IH]; intros c c' es r q kk f H HI HF Hq Hp Ho Hf Hm1 Hm2 Hol Hall Hc Ha Hn.
    - cbn in H. injection H as <- <-. congruence.
    - cbn in H. destruct (step cfg l c) as [[c1 e]|] eqn:E; [|discriminate]. destruct (run cfg ls c1) as [[c2 e2]|] eqn:E2; [|discriminate].
      injection H as <- <-.
      assert (Hpe : rq_pc q <> PEnded) by (destruct Hp; congruence).
      assert (Hreg : forall ee, reg ee (rq_pc q) = Some kk) by (intros ee; destruct Hp as [->| ->]; destruct ee; reflexivity).
      assert (Hd : (exists ch, l = LWake ch) \/ (forall ch, l <> LWake ch)) by (destruct l; eauto; right; congruence).
      destruct Hd as [[ch ->]|Hnw].
      + destruct (wake_reqs _ _ _ _ _ E) as (_ & _ & f' & Hf' & Hcase). rewrite Hf in Hf'. injection Hf' as <-.
        pose proof (wi_to _ _ _ HI _ _ false _ Hq (Hreg false) Ho) as Hw. cbn in Hw.
        destruct Hcase as [(_ & _ & _ & _ & Hx)|(i & w & qw & -> & Hwi & Hqw & Hmw & -> & Hws & Hrs)].
        * exfalso. assert (Hx' : existsb (fun w => header_eqb (w_hdr w) (f_hdr f)) (c_waiters c) = true); [|congruence].
          apply existsb_exists. eexists. split; [exact Hw|]. exact Hm1.
        * destruct (wi_from _ _ _ HI w (nth_error_In _ _ Hwi)) as (q1 & k1 & K1 & K2 & K3 & K4).
          rewrite Hqw in K1. injection K1 as <-.
          assert (Hwr : w_req w = r).
          { destruct (Nat.eq_dec (w_req w) r) as [|Hne]; auto. exfalso.
            assert (Hpw : rq_pc qw <> PEnded) by (intros X; rewrite X in K2; destruct (w_err w); discriminate).
            apply (Hol _ _ Hne Hqw Hpw). apply header_eqb_iff in Hmw as [_ Hmw]. rewrite <- Hmw, K4.
            destruct (w_err w); reflexivity. }
          rewrite Hwr in *. rewrite Hq in Hqw. injection Hqw as <-. rewrite (Hreg (w_err w)) in K2. injection K2 as <-.
          assert (Hwe : w_err w = false).
          { destruct (w_err w); auto. cbn in K4. rewrite K4 in Hmw. congruence. }
          rewrite Hwe in *. apply outcome_later.
          eapply (run_held ls c1 c2 e2 r (fill false q f) kk f); eauto.
          -- eapply step_inv; eauto. -- eapply finv_step; eauto. -- rewrite Hrs. eapply set_nth_some; eauto.
          -- intros Hi. apply Hc. right. auto.
      + destruct (step_running _ _ _ _ _ _ _ E HI (conj Hq Hpe)) as [(-> & _)|[(res & Hres & _)|(q' & Hr' & Hk & Hsl)]].
        * exfalso. apply Hc. left. auto.
        * eapply outcome_now; eauto. intros g. congruence.
        * apply outcome_later. destruct Hr' as [Hr1 Hr2]. destruct Hk as (K1 & K2 & K3 & K4 & K5 & K6).
          assert (Hp' : rq_pc q' = PReg kk \/ rq_pc q' = PSent kk).
          { pose proof (K2 true _ (Hreg true)) as R. destruct (rq_pc q') eqn:Ep; cbn in R; try discriminate; injection R as ->; auto. }
          assert (Hfr : rq_frame q' = rq_frame q).
          { apply K4. destruct Hp as [->| ->]; discriminate. }
          assert (Hoff : c_offer c1 = Some f).
          { pose proof (run_in_alive _ _ _ _ _ E2 Ha) as Ha1.
            destruct l; cbn [ClientModel.step] in E;
            try (exfalso; eapply Hnw; reflexivity);
            repeat match type of E with context [match ?x with _ => _ end] => destruct x eqn:?; try discriminate end;
            injection E as <- <-; unfold adopt; try destruct (negb (kkind_eqb _ _)); cbn in *; try congruence. }
          apply (IH c1 c2 e2 r q' kk f); auto.
          -- eapply step_inv; eauto. -- eapply finv_step; eauto.
          -- destruct (Hsl false) as [S|(i & w & g & -> & _)]; [cbn in S; congruence|exfalso; eapply Hnw; reflexivity].
          -- unfold ok_header in *. rewrite K5, Hfr. auto.
          -- unfold err_header in *. rewrite Hfr. auto.
          -- apply (Hall [l] ls c1 [e]); auto. cbn. rewrite E. auto.
          -- intros l1 l2 c3 e3 -> Hr3. apply (Hall (l :: l1) l2 c3 (e :: e3)); auto. cbn. rewrite E, Hr3. auto.
          -- intros Hi. apply Hc. right. auto.
  Qed.
End C31.

(** [pre]: any history, after which request [r] waits for its reply (it has been
    registered, and nothing was handed to it); then a frame [f] arrives that answers
    it and no other request under way or made later; no subscription takes it.
    Whatever else happens ([post]), as long as the user keeps waiting and the
    receiving side lives long enough to process the frame, the request returns [f], or is
    about to: [f] has been handed to it.  The only ways out are an error reply that
    was handed to it as well, and closing. *)
Theorem C31_reply_reaches_request :
  forall cfg pre c0 e0 r q kk bytes f post c es,
    run cfg pre client_new = Some (c0, e0) ->
    nth_error (c_reqs c0) r = Some q -> rq_pc q = PReg kk \/ rq_pc q = PSent kk -> rq_ok q = None ->
    frame_of bytes = [f] ->
    answers_to kk (rq_resp q) (hdr_seq (f_hdr (rq_frame q))) f ->
    ~ answers_to kk (cfg_err_key cfg) (hdr_seq (f_hdr (rq_frame q))) f ->
    (forall r' sent resp, r' <> r -> nth_error (issued 0 (pre ++ post)) r' = Some (sent, resp) -> ~ ended c0 r' ->
       seq_value (hdr_seq (f_hdr sent)) <> seq_value (hdr_seq (f_hdr f))) ->
    (forall k id, In (k, id) (exclusive_list (c_subs c0)) \/ In (k, id) (broadcast_list (c_subs c0)) -> of_topic k f = false) ->
    run cfg (LRecv bytes :: post) c0 = Some (c, es) ->
    ~ In (LCancel r) post ->
    c_in_alive c = true -> c_offer c = None ->
    In (r, GotReply f) (results es) \/
    (exists q', nth_error (c_reqs c) r = Some q' /\ rq_ok q' = Some f) \/
    (exists g, In (r, GotError g) (results es)) \/
    (In (r, Closed) (results es) /\ is_closed c = true).
Proof.
  intros cfg pre c0 e0 r q kk bytes f post c es Hpre Hq Hp Ho Hf [A1 A2] B Hoth Hsub Hrun Hc Ha Hn.
  cbn [run] in Hrun. destruct (step cfg (LRecv bytes) c0) as [[c1 e1]|] eqn:E; [|discriminate].
  destruct (run cfg post c1) as [[c2 e2]|] eqn:E2; [|discriminate]. injection Hrun as <- <-.
  destruct (recv_offers _ _ _ _ _ _ Hf E Hsub) as (O1 & O2 & O3 & ->).
  pose proof (reach_cinv _ _ _ _ Hpre) as HI. pose proof (reach_finv _ _ _ _ Hpre) as HF.
  assert (Hlive : forall l1 l2 c3 e3, post = l1 ++ l2 -> run cfg l1 c1 = Some (c3, e3) -> other_live c3 r f).
  { intros l1 l2 c3 e3 -> H3 r' q' Hne Hq' Hpe.
    assert (H4 : run cfg (pre ++ LRecv bytes :: l1) client_new = Some (c3, e0 ++ [] :: e3)).
    { eapply run_app2; eauto. cbn [run]. rewrite E, H3. reflexivity. }
    destruct (reach_issued _ _ _ _ H4) as (_ & HL & HM).
    destruct (nth_error (issued 0 (pre ++ LRecv bytes :: l1)) r') as [[sent resp]|] eqn:Hi.
    2:{ apply nth_error_None in Hi. assert (r' < length (c_reqs c3)) by (apply nth_error_Some; congruence). lia. }
    rewrite (made_seq _ _ (HM _ _ _ Hi Hq')). cbn [fst]. eapply Hoth; eauto.
    - rewrite issued_app in Hi. cbn [issued] in Hi. rewrite app_assoc, issued_app, issued_app.
      rewrite nth_error_app1; [exact Hi|]. apply nth_error_Some. congruence.
    - intros (q0 & Q1 & Q2).
      assert (Hen : ended c1 r') by (exists q0; rewrite O2; auto).
      clear - H3 Hen Hq' Hpe HI E. assert (HI1 : CInv cfg c1) by (eapply step_inv; eauto). clear E HI.
      revert c1 e3 H3 Hen HI1. induction l1 as [|l l1 IH]; cbn; intros.
      + injection H3 as <- <-. destruct Hen as (q1 & ? & ?). congruence.
      + destruct (step cfg l c1) as [[c4 e4]|] eqn:E; [|discriminate]. destruct (run cfg l1 c4) as [[c5 e5]|] eqn:E5; [|discriminate].
        injection H3 as <- <-. eapply IH; eauto. { eapply step_ended; eauto. } { eapply step_inv; eauto. } }
  apply (outcome_later r f c2 [] e2).
  eapply (run_offered cfg post c1 c2 e2 r q kk f); eauto.
  - eapply step_inv; eauto. - eapply finv_step; eauto.
  - rewrite O2. auto.
  - apply header_eqb_iff. cbn. auto.
  - destruct (header_eqb (err_header cfg q kk) (f_hdr f)) eqn:X; auto. exfalso. apply B.
    apply header_eqb_iff in X as [X1 X2]. cbn in X1, X2. split; auto.
  - eapply (Hlive [] post); eauto. reflexivity.
Qed.
Print Assumptions C31_reply_reaches_request.
