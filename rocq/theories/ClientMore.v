(** More about histories of a client: what a request keeps, the outgoing queue,
    closing. *)
From Coq Require Import NArith List Bool Arith Lia Permutation.
From Verif Require Import KeyModel HeaderModel KeySpec HeaderSpec KeyProof HeaderProof SubModel SubSpec SubProof ClientModel ClientSpec ClientProof ClientHist.
Import ListNotations.

Section More.
  Variable cfg : Config.
  Notation step := (step cfg).
  Notation run := (run cfg).

  (** ** Flags *)
  Ltac crush H :=
    repeat match type of H with context [match ?x with _ => _ end] => destruct x eqn:?; try discriminate end;
    injection H as <- <-.

  Lemma step_in_alive l c c' e : step l c = Some (c', e) -> c_in_alive c' = true -> c_in_alive c = true.
  Proof.
    intros H. destruct l; cbn [ClientModel.step] in H; crush H; cbn; auto;
    unfold adopt; try destruct (negb _); cbn; auto; congruence.
  Qed.
  Lemma step_out_alive l c c' e : step l c = Some (c', e) -> c_out_alive c' = true -> c_out_alive c = true.
  Proof.
    intros H. destruct l; cbn [ClientModel.step] in H; crush H; cbn; auto;
    unfold adopt; try destruct (negb _); cbn; auto; congruence.
  Qed.
  Lemma step_stopped l c c' e : step l c = Some (c', e) -> c_stopped c = true -> c_stopped c' = true.
  Proof.
    intros H. destruct l; cbn [ClientModel.step] in H; crush H; cbn; auto;
    unfold adopt; try destruct (negb _); cbn; auto; congruence.
  Qed.
  Lemma run_in_alive ls c c' es : run ls c = Some (c', es) -> c_in_alive c' = true -> c_in_alive c = true.
  Proof.
    revert c es. induction ls as [|l ls IH]; cbn; intros c es H; [injection H as <- <-; auto|].
    destruct (step l c) as [[c1 e]|] eqn:E; [|discriminate]. destruct (run ls c1) as [[c2 e2]|] eqn:E2; [|discriminate].
    injection H as <- <-. intros H. eapply step_in_alive; eauto.
  Qed.
  Lemma run_stopped ls c c' es : run ls c = Some (c', es) -> c_stopped c = true -> c_stopped c' = true.
  Proof.
    revert c es. induction ls as [|l ls IH]; cbn; intros c es H; [injection H as <- <-; auto|].
    destruct (step l c) as [[c1 e]|] eqn:E; [|discriminate]. destruct (run ls c1) as [[c2 e2]|] eqn:E2; [|discriminate].
    injection H as <- <-. intros Hs. eapply IH; eauto. eapply step_stopped; eauto.
  Qed.

  Definition FInv (c : Client) : Prop :=
    (c_out_alive c = false -> c_stopped c = true) /\ (c_in_alive c = false -> c_stopped c = true) /\
    (c_in_alive c = false -> c_offer c = None /\ s_blocked (c_subs c) = None) /\
    (c_out_alive c = false -> c_out c = [] /\ c_sending c = None) /\
    (c_in_alive c = true -> s_stopped (c_subs c) = false) /\
    (c_offer c <> None -> s_blocked (c_subs c) = None).

  Ltac inner H :=
    repeat match type of H with
    | context [match ?x with _ => _ end] =>
      lazymatch x with context [match _ with _ => _ end] => fail | _ => destruct x eqn:?; try discriminate end
    end.

  Lemma sub_step_facts nw o s s' out : sub_step nw o s = Some (s', out) ->
    (o <> StopWorker -> s_stopped s' = s_stopped s) /\ (user_op o = true -> s_blocked s' = s_blocked s) /\
    (out = ODelivery NotHandled -> s_blocked s' = None) /\ (forall w, o = Unblock w -> s_blocked s <> None).
  Proof.
    intros H. destruct o; cbn [sub_step] in H; unfold subscribe_mpsc, subscribe_multi, deliver, unblock, recv_exclusive, recv_multi, drop_exclusive, drop_multi, x_alive, m_alive, blocked in H;
    inner H; inversion H; subst; cbn; repeat split; auto; try discriminate; try congruence.
  Qed.

  Lemma blocked_none s : blocked s = false -> s_blocked s = None.
  Proof. unfold blocked. destruct (s_blocked s); congruence. Qed.

  Lemma finv_step l c c' e : step l c = Some (c', e) -> FInv c -> FInv c'.
  Proof.
    intros H (F1 & F2 & F3 & F4 & F5 & F6). unfold FInv.
    destruct l; cbn [ClientModel.step] in H; crush H; unfold adopt; try destruct (negb (kkind_eqb _ _));
    cbn; repeat split; auto; try tauto; try congruence; try (apply F3; assumption); try (apply F4; assumption).
    all: try (match goal with H : sub_step _ _ _ = _ |- _ => destruct (sub_step_facts _ _ _ _ _ H) as (S1 & S2 & S3 & S4) end).
    all: try (match goal with H : c_out_alive _ = false, B : negb _ = false |- _ => rewrite H in B; discriminate end).
    all: try (match goal with H : c_in_alive _ = false, B : (negb _ || _)%bool = false |- _ => rewrite H in B; discriminate end).
    all: try (intros Ha; rewrite S1; [auto|]; try discriminate; match goal with H : user_op ?o = true |- _ => destruct o; discriminate end).
    - auto.
    - intros Ho. exfalso. apply (S4 w); auto.
    - rewrite S2 by auto. apply F3. assumption.
    - intros Ho. rewrite S2 by auto. auto.
  Qed.

  Lemma reach_finv ls c es : run ls client_new = Some (c, es) -> FInv c.
  Proof.
    revert ls c es. apply (run_ind cfg (fun _ c _ => FInv c)).
    - unfold FInv. cbn. repeat split; auto; try discriminate.
    - intros. eapply finv_step; eauto.
  Qed.

  (** ** What a running request keeps *)
  Definition running (c : Client) (r : nat) (q : Req) : Prop := nth_error (c_reqs c) r = Some q /\ rq_pc q <> PEnded.

  Definition kept (q q' : Req) : Prop :=
    (forall e f, slot e q = Some f -> slot e q' = Some f) /\
    (forall e kk, reg e (rq_pc q) = Some kk -> reg e (rq_pc q') = Some kk) /\
    (forall kk, rq_pc q = PSent kk -> rq_pc q' = PSent kk) /\
    (cap (rq_pc q) <> None -> rq_frame q' = rq_frame q /\ cap (rq_pc q') = cap (rq_pc q)) /\
    rq_resp q' = rq_resp q /\ hdr_seq (f_hdr (rq_frame q')) = hdr_seq (f_hdr (rq_frame q)).

  Lemma kept_refl q : kept q q.
  Proof. repeat split; auto. Qed.
  Lemma kept_trans a b c : kept a b -> kept b c -> kept a c.
  Proof.
    intros (A1 & A2 & A3 & A4 & A5 & A6) (B1 & B2 & B3 & B4 & B5 & B6). repeat split; auto; try congruence.
    - destruct (A4 H) as [E1 E2]. destruct B4; congruence.
    - destruct (A4 H) as [E1 E2]. destruct B4; congruence.
  Qed.

  Lemma step_running l c c' e r q : step l c = Some (c', e) -> CInv cfg c -> running c r q ->
    (l = LCancel r /\ result_of e = None /\ ended c' r) \/
    (exists res, result_of e = Some (r, res) /\ ended c' r) \/
    (exists q', running c' r q' /\ kept q q' /\
      (forall ee, slot ee q' = slot ee q \/
         exists i w f, l = LWake (Some i) /\ nth_error (c_waiters c) i = Some w /\ w_req w = r /\ w_err w = ee /\ slot ee q' = Some f /\ header_eqb (w_hdr w) (f_hdr f) = true)).
  Proof.
    intros H HI [Hq Hp]. pose proof (step_cstep _ _ _ _ _ H) as HC. unfold running, ended, CInv in *. destruct HC.
    - right. right. exists q. split; [split; auto|]. split; [apply kept_refl|]. auto.
    - right. right. exists q. split; [split; auto|]. { rewrite nth_error_app1; auto. apply nth_error_Some. congruence. }
      split; [apply kept_refl|]. auto.
    - right. right. destruct (Nat.eq_dec r r0) as [->|Hne].
      + rewrite Hq in H0. injection H0 as <-. eexists. split; [split; [eapply set_nth_some; eauto|discriminate]|].
        split; [|intros []; auto]. unfold kept. cbn. rewrite H1. repeat split; auto; try discriminate; try (intros [] ?; cbn in *; congruence); try (exfalso; cbn in *; congruence); try congruence.
      + exists q. split; [split; auto; rewrite set_nth_other by auto; auto|]. split; [apply kept_refl|]. auto.
    - right. right. destruct (Nat.eq_dec r r0) as [->|Hne].
      + rewrite Hq in H0. injection H0 as <-. exists q'. split; [split; [eapply set_nth_some; eauto|]|].
        { destruct e0, H1 as (_ & _ & ->); discriminate. }
        split; [|destruct e0, H1 as (_ & _ & ->); intros []; auto].
        destruct e0, H1 as (_ & Hp' & ->); unfold kept; cbn; rewrite Hp'; repeat split; auto; try discriminate; try (intros [] ?; cbn in *; congruence); try (exfalso; cbn in *; congruence); try congruence.
      + exists q. split; [split; auto; rewrite set_nth_other by auto; auto|]. split; [apply kept_refl|]. auto.
    - right. right. destruct (Nat.eq_dec r r0) as [->|Hne].
      + rewrite Hq in H0. injection H0 as <-. eexists. split; [split; [eapply set_nth_some; eauto|discriminate]|].
        split; [|intros []; auto]. unfold kept. cbn. rewrite H1. repeat split; auto; try discriminate; try (intros [] ?; cbn in *; congruence); try (exfalso; cbn in *; congruence); try congruence.
      + exists q. split; [split; auto; rewrite set_nth_other by auto; auto|]. split; [apply kept_refl|]. auto.
    - destruct (Nat.eq_dec r r0) as [->|Hne].
      + assert (He : exists q', nth_error (set_nth r0 (MkReq (rq_frame q0) (rq_resp q0) PEnded None None) reqs) r0 = Some q' /\ rq_pc q' = PEnded).
        { eexists. split; [eapply set_nth_some; eauto|reflexivity]. }
        destruct o as [[r' res]|].
        * right. left. destruct H2 as (-> & H2). exists res. auto.
        * left. auto.
      + right. right. exists q. split; [split; auto; rewrite set_nth_other by auto; auto|]. split; [apply kept_refl|]. auto.
    - right. right. destruct (Nat.eq_dec r (w_req w)) as [->|Hne].
      + rewrite Hq in H1. injection H1 as <-. exists (fill (w_err w) q f).
        destruct (wi_from _ _ _ HI w (nth_error_In _ _ H0)) as (q1 & kk & K1 & K2 & K3 & K4).
        rewrite Hq in K1. injection K1 as <-.
        split; [split; [eapply set_nth_some; eauto|]|].
        { unfold fill. destruct (w_err w); auto. }
        split.
        * unfold kept, fill. destruct (w_err w); cbn in *; repeat split; auto; try (intros [] ?; cbn in *; congruence).
        * intros ee. destruct (bool_dec ee (w_err w)) as [->|He].
          -- right. exists i, w, f. repeat split; auto. unfold fill. destruct (w_err w); reflexivity.
          -- left. unfold fill. destruct (w_err w), ee; try congruence; reflexivity.
      + exists q. split; [split; auto; rewrite set_nth_other by auto; auto|]. split; [apply kept_refl|]. auto.
  Qed.

  (** Over a whole history. *)
  Lemma run_running ls : forall c c' es r q, run ls c = Some (c', es) -> CInv cfg c -> running c r q ->
    In (LCancel r) ls \/ (exists res, In (r, res) (results es)) \/ (exists q', running c' r q' /\ kept q q').
  Proof.
    induction ls as [|l ls IH]; intros c c' es r q H HI Hr.
    - cbn in H. injection H as <- <-. right. right. exists q. split; auto. apply kept_refl.
    - cbn in H. destruct (step l c) as [[c1 e]|] eqn:E; [|discriminate]. destruct (run ls c1) as [[c2 e2]|] eqn:E2; [|discriminate].
      injection H as <- <-. destruct (step_running _ _ _ _ _ _ E HI Hr) as [(-> & _)|[(res & Hres & _)|(q' & Hr' & Hk & _)]].
      + left. left. auto.
      + right. left. exists res. replace (e :: e2) with ([e] ++ e2) by reflexivity. rewrite results_app, (step_results _ _ _ _ _ E), Hres. left. auto.
      + destruct (IH _ _ _ _ _ E2 (step_inv _ _ _ _ _ E HI) Hr') as [Hc|[(res & Hres)|(q2 & Hr2 & Hk2)]].
        * left. right. auto.
        * right. left. exists res. replace (e :: e2) with ([e] ++ e2) by reflexivity. rewrite results_app, in_app_iff. auto.
        * right. right. exists q2. split; auto. eapply kept_trans; eauto.
  Qed.
End More.
