(** C82: what a test sees of the fake server. *)
From Coq Require Import NArith List Bool Arith Lia.
From Verif Require Import KeyModel HeaderModel KeySpec HeaderSpec KeyProof HeaderProof SubModel SubSpec SubProof
  ClientModel ClientSpec ClientProof ClientHist ClientMore ClientOut ClientThm ClientThm3 DispatchModel SystemModel LiveSpec LiveProof ChanSysLive
  FakeModel FakeSpec FakeProof FakeLive.
Import ListNotations.

Section Fake.
  Variable bound : nat.
  Variable err_key : Key8.
  Variable no_wait : bool.
  Notation cfg := (fake_cfg bound err_key no_wait).
  Notation f_step := (f_step bound err_key no_wait).
  Notation f_run := (f_run bound err_key no_wait).
  Notation reach_fake := (reach_fake bound err_key no_wait).

  Variable ls : list FLabel.
  Variable s : Fake.
  Variable cl : list Label.
  Variable es : list (list Ev).
  Variable sv : list FakeEv.
  (** Any history of a client and a fake server. *)
  Hypothesis Hr : f_run ls fake_new = Some (s, cl, es, sv).

  Lemma shrunk_ok kk g : header_ok (f_hdr g) -> frame_of (rpc_to_bytes (shrink_frame kk g)) = [shrink_frame kk g].
  Proof.
    clear. intros [K1 K2]. unfold frame_of, rpc_to_bytes. pose proof (take_write (f_hdr (shrink_frame kk g)) (f_body (shrink_frame kk g))) as T.
    unfold frame_to_bytes in T. rewrite T; [destruct g; reflexivity|]. split; [|exact K2]. cbn. apply shrink_key_ok. exact K1.
  Qed.
  Lemma frames_ok frames : calls_ok cl -> Forall2 (frame_for cl es) (accepted cl es) frames -> Forall (fun f => frame_of (rpc_to_bytes f) = [f]) frames.
  Proof.
    clear. intros C F. induction F as [|x f xs fs (g & kk & _ & -> & Hg) _ IH]; constructor; auto. apply shrunk_ok. apply (C x). destruct x; exact Hg.
  Qed.

  (** The test receives the frames of the accepted calls, whole and in order, each once;
      [BadFrame] never happens. *)
  Theorem C82_server_receives :
    calls_ok cl ->
    ~ In FakeBadFrame sv /\
    exists frames rest, Forall2 (frame_for cl es) (accepted cl es) frames /\ frames = got sv ++ rest.
  Proof.
    intros C. pose proof (reach_fake _ _ _ _ _ Hr) as R. destruct (reach_out _ _ _ _ R) as ((acc & lost & A1 & A2 & A3 & A4) & _).
    destruct (run_up _ _ _ _ _ _ _ _ _ Hr) as (bs & T & E). cbn [fk_up fake_new app] in E. rewrite E, <- app_assoc in A2.
    destruct (took_frames _ _ _ _ T A2 (frames_ok _ C A1)) as (N & more & M & _). split; auto. exists acc, more. auto.
  Qed.

  (** Nothing is left out: when the program has nothing left to do, the client is open, and
      the test has taken all there is, it has the frame of every accepted call. *)
  Theorem C82_everything_received :
    calls_ok cl -> (forall l, f_own_step l = true -> f_step l s = None) -> 0 < bound ->
    is_closed (fk_client s) = false -> fk_up s = [] ->
    Forall2 (frame_for cl es) (accepted cl es) (got sv).
  Proof.
    intros C Hrest Hb Hc Hu. pose proof (reach_fake _ _ _ _ _ Hr) as R. destruct (reach_out _ _ _ _ R) as ((acc & lost & A1 & A2 & A3 & A4) & _).
    destruct (fk_open_rest _ _ _ _ _ _ _ _ Hr Hrest Hc) as (_ & Ao & _ & _ & _ & _ & Q).
    destruct Q as [[Q1 Q2]|Q]; [|rewrite Hu in Q; cbn in Q; lia].
    rewrite (A3 Ao), app_nil_r in A2. unfold queued in A2. rewrite Q1, Q2 in A2. cbn in A2. rewrite app_nil_r in A2.
    destruct (run_up _ _ _ _ _ _ _ _ _ Hr) as (bs & T & E). cbn [fk_up fake_new app] in E. rewrite E, Hu in A2.
    destruct (took_frames _ _ _ _ T A2 (frames_ok _ C A1)) as (_ & more & M & Z). destruct more; [|discriminate]. rewrite app_nil_r in M. subst. exact A1.
  Qed.

  Lemma received_sent b : In b (received cl) -> In b (sent sv).
  Proof. intros H. pose proof (run_down _ _ _ _ _ _ _ _ _ Hr) as D. cbn [fk_down fake_new app] in D. rewrite D. apply in_app_iff. auto. Qed.

  (** As long as the test only uses [reply] and [publish], it receives what the callers gave,
      with full keys. *)
  Theorem C82_full_keys :
    only_replies (sent sv) ->
    forall call f, frame_for cl es call f -> given cl call f.
  Proof.
    intros Ho call f (g & kk & K & -> & Hg). pose proof (reach_fake _ _ _ _ _ Hr) as R.
    rewrite (full_kind _ _ _ _ _ _ _ _ R Ho received_sent K).
    assert (G : given cl call g) by (destruct call; exact Hg). replace (shrink_frame KK8 g) with g; auto.
    unfold shrink_frame. rewrite shrink_noop; [destruct g as [[]]; reflexivity|]. rewrite vlen_kind. destruct (varkey_kind (hdr_key (f_hdr g))); cbn; lia.
  Qed.

  (** The client receives what the test sent, in order, and nothing else; the rest waits
      in the channel. *)
  Theorem C82_client_receives : sent sv = received cl ++ fk_down s.
  Proof. exact (run_down _ _ _ _ _ _ _ _ _ Hr). Qed.

  (** Failing or dropping the server ends everything: once the program has nothing left to
      do, the client is closed, every call has returned, and the test is told [TxClosed]
      (after the frames still in the channel) and [RxClosed]. *)
  Theorem C82_failure_ends :
    (forall l, f_own_step l = true -> f_step l s = None) -> fk_fatal s = true \/ fk_gone s = true \/ is_closed (fk_client s) = true ->
    is_closed (fk_client s) = true /\
    (forall r, r < length (issued 0 cl) -> ended (fk_client s) r) /\
    (forall i f, nth_error (c_pubs (fk_client s)) i <> Some (Some f)) /\
    (fk_gone s = false ->
      (fk_up s = [] -> f_step FTake s = Some (s, None, Some FakeTxClosed)) /\
      forall b, f_step (FSend b) s = Some (s, None, Some FakeRxClosed)).
  Proof.
    intros Hrest D. pose proof (reach_fake _ _ _ _ _ Hr) as R. pose proof (reach_finv _ _ _ _ R) as F. pose proof (reach_cinv _ _ _ _ R) as I.
    assert (St : c_stopped (fk_client s) = true).
    { destruct (c_stopped (fk_client s)) eqn:X; auto. destruct (fk_open_rest _ _ _ _ _ _ _ _ Hr Hrest X) as (_ & _ & _ & _ & G & Fa & _). unfold is_closed in D.
      destruct D as [D|[D|D]]; congruence. }
    destruct (client_rest_ended cfg _ St F I) as (Ai & Ao & E1 & E2).
    { intros l Hl Nl. eapply fk_client_rest; eauto. }
    split; auto. split; [|split; auto].
    - intros r L. destruct (reach_issued _ _ _ _ R) as (_ & IL & _). destruct (nth_error (c_reqs (fk_client s)) r) as [q|] eqn:Q.
      + exists q. eauto.
      + apply nth_error_None in Q. lia.
    - intros G. cbn [FakeModel.f_step]. rewrite G, Ai, Ao. split; [intros ->|]; reflexivity.
  Qed.

  (** Until the user or the test does something, the program takes finitely many steps. *)
  Theorem C82_own_steps_end :
    forall f : nat -> Fake,
      f 0 = s -> ~ (forall n, exists l ce fe, f_own_step l = true /\ f_step l (f n) = Some (f (S n), ce, fe)).
  Proof.
    intros f E H. pose proof (reach_fake _ _ _ _ _ Hr) as R. pose proof (reach_finv _ _ _ _ R) as F0.
    assert (O : forall n, FInv (fk_client (f n))).
    { induction n as [|n IH]; [rewrite E; exact F0|]. destruct (H n) as (l & ce & fe & _ & Hs).
      pose proof (fstep_client _ _ _ _ _ _ _ _ Hs) as X. destruct ce as [[x e]|]; cbn in X.
      - destruct (step cfg x (fk_client (f n))) as [[c1 e1]|] eqn:Y; [|discriminate]. injection X as <- _. eapply finv_step; eauto.
      - injection X as <-. exact IH. }
    pose proof (f_less_wf (f 0)) as A.
    enough (G : forall s, Acc f_less s -> forall n, f n <> s) by exact (G _ A 0 eq_refl).
    clear A. intros s0 A. induction A as [s0 _ IH]. intros n <-. refine (IH (f (S n)) _ (S n) eq_refl). destruct (H n) as (l & ce & fe & Ho & Hs). eapply own_f_less; eauto.
  Qed.
End Fake.
Print Assumptions C82_server_receives.
Print Assumptions C82_everything_received.
Print Assumptions C82_full_keys.
Print Assumptions C82_client_receives.
Print Assumptions C82_failure_ends.
Print Assumptions C82_own_steps_end.

Section More.
  Variable bound : nat.
  Variable err_key : Key8.
  Variable no_wait : bool.
  Notation cfg := (fake_cfg bound err_key no_wait).
  Notation f_step := (f_step bound err_key no_wait).
  Notation f_run := (f_run bound err_key no_wait).

  (** After [cause_fatal_error], at most one more frame reaches the test's end, and at most
      one more the client. *)
  Theorem C82_at_most_one_more :
    forall ls s s' cl es sv,
      fk_fatal s = true -> f_run ls s = Some (s', cl, es, sv) ->
      length (wire es) <= 1 /\ length (received cl) <= 1.
  Proof.
    enough (G : forall ls s s' cl es sv, fk_fatal s = true -> f_run ls s = Some (s', cl, es, sv) ->
      length (wire es) <= b2n (fk_sending s) /\ length (received cl) <= b2n (fk_listening s)).
    { intros ls s s' cl es sv Hf H. destruct (G _ _ _ _ _ _ Hf H). destruct (fk_sending s), (fk_listening s); cbn in *; lia. }
    induction ls as [|l ls IH]; intros s s' cl es sv Hf H.
    - injection H as <- <- <- <-. cbn. lia.
    - apply f_run_cons in H as (s1 & ce & fe & cl1 & es1 & sv1 & H1 & H2 & -> & -> & ->).
      apply f_step_cases in H1.
      assert (X : fk_fatal s1 = true /\ length (wire (cevs ce)) + b2n (fk_sending s1) <= b2n (fk_sending s) /\ length (received (clab ce)) + b2n (fk_listening s1) <= b2n (fk_listening s)).
      { destruct H1 as [l c e Sx W N1 N2 N3 N4 N5|f E1 E2 E3|f p c e E1 Sx E2 E3 E4 W|l x c e Sx W D D1 D2|E1 E2 E3|p b q c e D Sx W L|b q v E1 E2 E3|E1 E2 E3|b E1 E2 E3|b E1 E2|E1|E1]; try congruence;
          split; auto; rewrite wire_wire_of; cbn [cevs clab flat_map]; rewrite ?app_nil_r; cbn [with_client set_sending set_listening set_up set_down fk_sending fk_listening length received flat_map app]; try lia.
        - rewrite W. destruct l; cbn; try lia. exfalso. eapply N1; reflexivity.
        - rewrite W, E2. cbn. lia.
        - rewrite W. destruct D as [-> | ->]; cbn; lia.
        - rewrite W, L. cbn. lia. }
      destruct X as (X1 & X2 & X3). destruct (IH _ _ _ _ _ X1 H2) as [Y1 Y2].
      rewrite wire_wire_of, flat_map_app, app_length, <- !wire_wire_of, received_app, app_length. lia.
  Qed.

  (** A reply reaches its caller.  [r] is a request that was accepted for sending before the
      test replied; its sequence number is [n].  If the client is open and has nothing left
      to do, the caller did not give up, and the test sent no other answer to it, then the
      request returned with that very reply. *)
  Theorem C82_reply_returned :
    forall ls1 ls2 s0 cl0 es0 sv0 s cl es sv r req n rbody resp body,
      f_run ls1 fake_new = Some (s0, cl0, es0, sv0) ->
      f_run (ls1 ++ FSend (fake_frame resp n body) :: ls2) fake_new = Some (s, cl, es, sv) ->
      (forall l, f_own_step l = true -> f_step l s = None) ->
      is_closed (fk_client s) = false ->
      In (inl r) (accepted cl0 es0) -> ~ In (LCancel r) cl ->
      nth_error (issued 0 cl) r = Some (MkFrame (MkHeader (VKey8 req) (Seq4 n)) rbody, resp) ->
      (forall r' f' resp', r' <> r -> nth_error (issued 0 cl) r' = Some (f', resp') -> seq_value (hdr_seq (f_hdr f')) <> n) ->
      header_ok (MkHeader (VKey8 resp) (Seq4 n)) -> resp <> err_key -> ~ In resp (topics_subscribed cl) ->
      only_replies (sent sv) ->
      (forall key body', In (fake_frame key n body') (sent sv) -> key = resp \/ key = err_key -> key = resp /\ body' = body) ->
      In (r, GotReply (MkFrame (MkHeader (VKey8 resp) (Seq4 n)) body)) (results es).
  Proof.
    intros ls1 ls2 s0 cl0 es0 sv0 s cl es sv r req n rbody resp body H0 H Hrest Hc Hacc Hcan Hi Hoth Hok Hne Hsub Ho Huni.
    pose proof (reach_fake _ _ _ _ _ _ _ _ H) as R. unfold is_closed in Hc.
    assert (Hin : forall b, In b (received cl) -> In b (sent sv)) by exact (received_sent _ _ _ _ _ _ _ _ H).
    destruct (fk_open_rest _ _ _ _ _ _ _ _ H Hrest Hc) as (Ai & _ & Of & Dn & _).
    apply f_run_app in H as (s1 & cl1 & es1 & sv1 & cl2 & es2 & sv2 & H1 & H2 & -> & -> & ->).
    rewrite H0 in H1. injection H1 as <- <- <- <-.
    pose proof (reach_fake _ _ _ _ _ _ _ _ H0) as R0. pose proof (run_length _ _ _ _ _ R0) as HL.
    assert (R2 := f_client_run _ _ _ _ _ _ _ _ _ H2).
    assert (Kk : forall kk, kind_seen (es0 ++ es2) kk -> kk = KK8) by (intros kk K; exact (full_kind _ _ _ _ _ _ _ _ R Ho Hin K)).
    assert (Acc : In (inl r) (accepted (cl0 ++ cl2) (es0 ++ es2))) by (rewrite (accepted_app _ _ _ _ HL), in_app_iff; auto).
    (* an answer that the request returned with is the reply *)
    assert (Good : forall g, In g (arrived (cl0 ++ cl2)) -> forall kk key, kind_seen (es0 ++ es2) kk -> key = resp \/ key = err_key -> answers_to kk key (Seq4 n) g ->
      key = resp /\ g = MkFrame (MkHeader (VKey8 resp) (Seq4 n)) body).
    { intros g Ag kk key K Kd [S1 S2]. destruct (full_arrived _ _ Ho Hin _ Ag) as (k & sq & bd & _ & Is & ->). cbn [f_hdr hdr_seq hdr_key seq_value] in S1, S2. subst sq.
      rewrite (Kk _ K) in S2. rewrite shrink_noop in S2 by (rewrite vlen_kind; cbn; lia). apply eqb_key8 in S2 as <-. destruct (Huni _ _ Is Kd) as [-> ->]. auto. }
    assert (En : forall res, In (r, res) (results (es0 ++ es2)) -> res = GotReply (MkFrame (MkHeader (VKey8 resp) (Seq4 n)) body)).
    { intros res Hres. destruct res as [g|g| |].
      - destruct (C30_answer_matches _ _ _ _ r g R) as [G _]. destruct (G Hres) as (f & rs & kk & I1 & I2 & I3 & I4). rewrite Hi in I1. injection I1 as <- <-.
        destruct (Good _ I2 _ _ I3 (or_introl eq_refl) I4) as [_ ->]. reflexivity.
      - exfalso. destruct (C30_answer_matches _ _ _ _ r g R) as [_ G]. destruct (G Hres) as (f & rs & kk & I1 & I2 & I3 & I4). rewrite Hi in I1. injection I1 as <- <-.
        destruct (Good _ I2 _ _ I3 (or_intror eq_refl) I4) as [X _]. cbn in X. congruence.
      - exfalso. exact (reach_not_refused _ _ _ _ _ R Acc Hres).
      - exfalso. pose proof (reach_closed _ _ _ _ _ R Hres). congruence. }
    enough (Ed : ended (fk_client s) r).
    { destruct (reach_ended _ _ _ _ _ R Ed) as [X|(res & X)]; [contradiction|]. rewrite <- (En _ X). exact X. }
    destruct (reach_out _ _ _ _ R) as (_ & _ & Pc & _). destruct (Pc _ Acc) as (q & Q1 & [Q2|(kk & Q2)]); [exists q; auto|]. exfalso.
    (* it waits: nothing was handed to it *)
    assert (Ok : rq_ok q = None).
    { destruct (rq_ok q) as [g|] eqn:X; auto. assert (Y : step cfg (LTakeOk r) (fk_client s) = None) by (eapply fk_client_rest; eauto; discriminate).
      cbn [step] in Y. rewrite Q1, Q2, X in Y. discriminate. }
    assert (Nend : forall res, ~ In (r, res) (results (es0 ++ es2))).
    { intros res X. destruct (proj2 (reach_results _ _ _ _ R) _ _ X) as (q' & Y1 & Y2). congruence. }
    (* the step at which the reply arrives *)
    assert (Sp : exists p post, cl2 = p ++ LRecv (fake_frame resp n body) :: post).
    { pose proof (run_down _ _ _ _ _ _ _ _ _ H2) as D. rewrite Dn, app_nil_r in D.
      apply f_run_cons in H2 as (s3 & ce & fe & cl3 & es3 & sv3 & H3 & H4 & _ & _ & E3). apply f_step_cases in H3.
      inversion H3; subst; cbn in D.
      - match goal with X : FSend _ = _ \/ _ |- _ => destruct X as [X|[(? & X)|[X|(? & X)]]]; discriminate end.
      - eapply received_split. symmetry. exact D.
      - exfalso. pose proof (f_client_run _ _ _ _ _ _ _ _ _ H4) as X.
        destruct (reach_finv _ _ _ _ R0) as (_ & F2 & _). match goal with X : c_in_alive _ = false |- _ => specialize (F2 X) end. pose proof (run_stopped _ _ _ _ _ X F2). congruence. }
    destruct Sp as (p & post & ->).
    apply run_app in R2 as (c1 & e1 & e2 & P1 & P2 & ->).
    assert (Rp : run cfg (cl0 ++ p) client_new = Some (c1, es0 ++ e1)) by (eapply run_app2; eauto).
    assert (Accp : In (inl r) (accepted (cl0 ++ p) (es0 ++ e1))) by (rewrite (accepted_app _ _ _ _ HL), in_app_iff; auto).
    destruct (reach_out _ _ _ _ Rp) as (_ & _ & Pc1 & _). destruct (Pc1 _ Accp) as (q1 & Z1 & Z2).
    pose proof (reach_cinv _ _ _ _ Rp) as HI. pose proof (reach_finv _ _ _ _ Rp) as HF.
    assert (Ncan : ~ In (LCancel r) (LRecv (fake_frame resp n body) :: post)).
    { intros X. apply Hcan. rewrite !in_app_iff. auto. }
    assert (Res2 : forall res, ~ In (r, res) (results e2)).
    { intros res X. apply (Nend res). rewrite !results_app, !in_app_iff. auto. }
    destruct Z2 as [Z2|(k1 & Z2)].
    { assert (Ed1 : ended c1 r) by (exists q1; auto). destruct (reach_ended _ _ _ _ _ Rp Ed1) as [X|(res & X)].
      - apply Hcan. rewrite !in_app_iff in *. tauto.
      - apply (Nend res). rewrite !results_app, !in_app_iff in *. tauto. }
    assert (Ok1 : rq_ok q1 = None).
    { destruct (rq_ok q1) as [g|] eqn:X; auto. exfalso.
      destruct (run_held _ _ _ _ _ _ _ _ _ P2 HI HF Z1 (or_intror Z2) X Ncan) as [Y|[(q' & Y1 & Y2)|[(g' & Y)|(Y & _)]]]; try (eapply Res2; exact Y). congruence. }
    destruct (reach_issued _ _ _ _ Rp) as (_ & IL & IM).
    assert (Ip : nth_error (issued 0 (cl0 ++ p)) r = Some (MkFrame (MkHeader (VKey8 req) (Seq4 n)) rbody, resp)).
    { rewrite app_assoc, issued_app in Hi. rewrite nth_error_app1 in Hi; auto. rewrite <- IL. apply nth_error_Some. congruence. }
    pose proof (IM _ _ _ Ip Z1) as Mk. pose proof (made_seq _ _ Mk) as Ms. cbn in Ms. pose proof (proj1 Mk) as Mr. cbn in Mr.
    assert (K1 : k1 = KK8).
    { apply Kk. destruct (reach_kinds _ _ _ _ Rp) as [_ X]. specialize (X r q1 k1 Z1). rewrite Z2 in X. specialize (X eq_refl).
      destruct X as [X|(f & X & Y)]; [left; auto|right; exists f; split; auto]. unfold answers in *. rewrite app_assoc, results_app, flat_map_app, in_app_iff. auto. }
    subst k1.
    destruct (C31_reply_reaches_request cfg _ _ _ r q1 KK8 (fake_frame resp n body) (MkFrame (MkHeader (VKey8 resp) (Seq4 n)) body) post (fk_client s) e2 Rp Z1 (or_intror Z2) Ok1) as [Y|[(q' & Y1 & Y2)|[(g' & Y)|(Y & _)]]]; auto.
    - apply fake_frame_of. exact Hok.
    - rewrite Mr, Ms. split; auto. exact (varkey_eqb_refl (VKey8 resp)).
    - intros [_ X]. rewrite shrink_noop in X by (rewrite vlen_kind; cbn; lia). apply eqb_key8 in X. cbn in X. congruence.
    - intros r' f' resp' Nr X _. cbn. eapply Hoth; eauto. rewrite <- X, (app_assoc cl0 p), (issued_app (cl0 ++ p)), (issued_app (cl0 ++ p)). reflexivity.
    - intros k id X. unfold of_topic. cbn [f_hdr hdr_key]. destruct (varkey_eqb (VKey8 k) (VKey8 resp)) eqn:Y; auto. apply eqb_key8 in Y as ->. exfalso.
      apply Hsub. rewrite app_assoc, topics_app, in_app_iff. left. eapply reach_listed; [exact Rp|]. unfold listed. destruct X as [X|X]; [left|right]; apply in_map_iff; exists (resp, id); auto.
    - intros X. apply Ncan. right. exact X.
    - eapply Res2; exact Y.
    - congruence.
    - eapply Res2; exact Y.
    - eapply Res2; exact Y.
  Qed.
End More.
Print Assumptions C82_at_most_one_more.
Print Assumptions C82_reply_returned.
