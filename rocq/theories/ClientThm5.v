(** C36 at the level of the whole client: subscribing around the moment of closing. *)
From Coq Require Import NArith List Bool Arith Lia.
From Verif Require Import KeyModel HeaderModel SubModel SubSpec ClientModel ClientSpec ClientProof ClientMore ClientThm4.
Import ListNotations.

Lemma sub_step_stopped nw o s s' out : sub_step nw o s = Some (s', out) -> s_stopped s = true ->
  s_stopped s' = true /\ forall r, out = ORes r -> r = IoClosed \/ r = SubPanic.
Proof.
  intros E1 St. unfold sub_step in E1. destruct o.
  - destruct (blocked s); [discriminate|]. unfold subscribe_mpsc in E1. destruct depth; [|rewrite St in E1]; injection E1 as <- <-; split; auto; intros r X; injection X as <-; auto.
  - destruct (blocked s); [discriminate|]. unfold subscribe_mpsc in E1. destruct depth; [|rewrite St in E1]; injection E1 as <- <-; split; auto; intros r X; injection X as <-; auto.
  - destruct (blocked s); [discriminate|]. unfold subscribe_multi in E1. rewrite St in E1. injection E1 as <- <-; split; auto; intros r X; injection X as <-; auto.
  - rewrite St, orb_true_r in E1. discriminate.
  - unfold unblock in E1. destruct (s_blocked s) as [[[c f] rm]|]; [|discriminate].
    destruct (mpsc_try_send c f (s_chans s)) as [ch []]; destruct w; try discriminate; injection E1 as <- <-; split; auto; discriminate.
  - destruct (x_alive id s); [|discriminate]. unfold recv_exclusive in E1. destruct (nth_error _ _) as [ch|]; [destruct (m_queue ch); [destruct (connected _ _)|]|]; injection E1 as <- <-; split; auto; discriminate.
  - destruct (m_alive id s); [|discriminate]. unfold recv_multi in E1. destruct (nth_error _ _) as [rx|]; [|injection E1 as <- <-; split; auto; discriminate].
    destruct (nth_error _ _); [|injection E1 as <- <-; split; auto; discriminate].
    destruct (_ <? _); [injection E1 as <- <-; split; auto; discriminate|].
    destruct (nth_error _ _); [injection E1 as <- <-; split; auto; discriminate|].
    destruct (connected _ _); injection E1 as <- <-; split; auto; discriminate.
  - destruct (x_alive id s); [|discriminate]. injection E1 as <- <-. unfold drop_exclusive. destruct (nth_error _ _); split; auto; discriminate.
  - destruct (m_alive id s); [|discriminate]. injection E1 as <- <-. unfold drop_multi. destruct (nth_error _ _); split; auto; discriminate.
  - injection E1 as <- <-. split; auto; discriminate.
Qed.

Ltac inner H :=
  repeat match type of H with
  | context [match ?x with _ => _ end] =>
    lazymatch x with context [match _ with _ => _ end] => fail | _ => destruct x eqn:?; try discriminate end
  end.

(** A user's operation gives [IoClosed] only from a stopped list. *)
Lemma sub_step_closed nw o s s' : sub_step nw o s = Some (s', ORes IoClosed) -> s_stopped s = true.
Proof.
  intros E1. destruct (s_stopped s) eqn:St; [reflexivity|exfalso].
  destruct o; cbn [sub_step] in E1;
    unfold subscribe_mpsc, subscribe_multi, unblock, recv_exclusive, recv_multi in E1; rewrite ?St in E1;
    inner E1; congruence.
Qed.

Lemma adopt_subs kk f c : c_subs (adopt kk f c) = c_subs c.
Proof. unfold adopt. repeat match goal with |- context [match ?x with _ => _ end] => destruct x end; reflexivity. Qed.

Lemma step_subs_stopped cfg l c c' e : step cfg l c = Some (c', e) -> s_stopped (c_subs c) = true ->
  s_stopped (c_subs c') = true /\ forall r, In (EvSub (ORes r)) e -> r = IoClosed \/ r = SubPanic.
Proof.
  intros H St. destruct l; cbn [step] in H.
  all: try (inner H; injection H as <- <-; split; [rewrite ?adopt_subs; cbn; auto|]; intros ? X; repeat (destruct X as [X|X]; [discriminate|]); destruct X; fail).
  all: inner H; injection H as <- <-; rewrite ?adopt_subs; cbn.
  all: try match goal with E : sub_step _ _ _ = Some _ |- _ => destruct (sub_step_stopped _ _ _ _ _ E St) as [S1 S2] end.
  all: try (split; [assumption|]; intros ? X; repeat (destruct X as [X|X]; [first [discriminate X|injection X as X; subst; eauto; left; congruence]|]); destruct X; fail).
  all: split; [reflexivity|intros ? []].
Qed.

Lemma step_told_closed cfg l c c' e : FInv c -> step cfg l c = Some (c', e) -> In (EvSub (ORes IoClosed)) e -> c_stopped c' = true.
Proof.
  intros FI H X. destruct l; cbn [step] in H.
  all: try (inner H; injection H as <- <-; exfalso; repeat (destruct X as [X|X]; [discriminate|]); destruct X; fail).
  - destruct (user_op o); [|discriminate]. destruct (sub_step _ _ _) as [[s out]|] eqn:E; [|discriminate]. injection H as <- <-.
    destruct X as [X|[]]. injection X as ->. apply sub_step_closed in E. cbn.
    destruct FI as (_ & F2 & _ & _ & F5 & _). destruct (c_in_alive c); [rewrite F5 in E by reflexivity; discriminate|auto].
  - destruct (c_stopped c) eqn:E; [|discriminate]. now injection H as <- <-.
Qed.

(** Subscribing around the moment of closing.  Nobody is told that the client is closed
    while it is not; once it is closed, a call of subscribe can return with that error
    at once, whoever holds the lock, and changes nothing; once the receiving worker has
    cleaned up, that is the only way it can end (or with the panic for a depth of 0). *)
Theorem C36_subscribing :
  forall cfg ls c es,
    run cfg ls client_new = Some (c, es) ->
    (forall e, In e es -> In (EvSub (ORes IoClosed)) e -> is_closed c = true) /\
    (is_closed c = true -> step cfg LSubClosed c = Some (c, [EvSub (ORes IoClosed)])) /\
    (In LPurge ls -> forall more c' es' e r,
       run cfg more c = Some (c', es') -> In e es' -> In (EvSub (ORes r)) e -> r = IoClosed \/ r = SubPanic).
Proof.
  intros cfg ls c es R. split; [|split].
  - revert ls c es R. apply (run_ind cfg (fun ls c es => forall e, In e es -> In (EvSub (ORes IoClosed)) e -> is_closed c = true)).
    + intros e [].
    + intros ls c es l c' e R IH E e0 Hi X. unfold is_closed in *. apply in_app_iff in Hi as [Hi|[<-|[]]].
      * eapply step_stopped; eauto.
      * eapply step_told_closed; eauto. eapply reach_finv; eauto.
  - unfold is_closed. intros Cl. cbn [step]. now rewrite Cl.
  - intros P. assert (St : s_stopped (c_subs c) = true).
    { revert ls c es R P. apply (run_ind cfg (fun ls c es => In LPurge ls -> s_stopped (c_subs c) = true)).
      - intros [].
      - intros ls c es l c' e R IH E P. apply in_app_iff in P as [P|[->|[]]].
        + eapply step_subs_stopped; eauto.
        + cbn [step] in E. destruct (c_in_alive c); [discriminate|]. now injection E as <- _. }
    clear R P ls es. intros more. revert c St. induction more as [|l more IH]; intros c St c' es' e r R Hi X; cbn [run] in R.
    + injection R as <- <-. destruct Hi.
    + destruct (step cfg l c) as [[c1 e1]|] eqn:E; [|discriminate]. destruct (run cfg more c1) as [[c2 e2]|] eqn:E2; [|discriminate]. injection R as <- <-.
      destruct (step_subs_stopped _ _ _ _ _ E St) as [S1 S2]. destruct Hi as [<-|Hi]; eauto.
Qed.
Print Assumptions C36_subscribing.

(** Between the two moments calls may still succeed: a client that says that it is closed
    grants a subscription, which then receives a message and ends; and it sends a request
    made after closing, whose answer is given to the caller. *)
Theorem C36_no_grace_refuted :
  exists cfg ls c es more c' es',
    run cfg ls client_new = Some (c, es) /\ is_closed c = true /\ c_reqs c = [] /\
    run cfg more c = Some (c', es') /\
    In [EvSub (ORes (Subscribed 0))] es' /\ (exists f, In [EvSub (OX (XGot f))] es') /\ In [EvSub (OX XEnded)] es' /\
    (exists f, In (0, GotReply f) (results es')).
Proof.
  exists y_cfg, [LClose]. do 2 eexists.
  exists ([LSub (SubscribeExclusive (y_k 7) 4); LRequest (y_k 1) (y_k 2) [10%N]] ++ y_out 0 ++
          [LRecv (rpc_to_bytes (y_frame 7 5 [77%N])); LRecv (rpc_to_bytes (y_frame 2 0 [100%N])); LWake (Some 0); LTakeOk 0;
           LInEnd; LPurge; LSub (ReceiveX 0); LSub (ReceiveX 0)]).
  do 2 eexists. split; [reflexivity|]. split; [reflexivity|]. split; [reflexivity|]. split; [vm_compute; reflexivity|].
  cbn. split; [auto|]. split; [eexists; auto 20|]. split; [auto 30|]. eexists. auto.
Qed.
Print Assumptions C36_no_grace_refuted.

(** Refused at once while the lock is held (the worker waits for room in a full queue, as
    it does unless told not to), and after the clean-up. *)
Example C36_ex_subscribing :
  match run y_cfg [LSub (SubscribeExclusive (y_k 7) 1); LRecv (rpc_to_bytes (y_frame 7 1 [1%N])); LRecv (rpc_to_bytes (y_frame 7 2 [2%N])); LClose] client_new with
  | Some (c, _) =>
      is_closed c = true /\ step y_cfg (LSub (SubscribeMulti (y_k 8) 4)) c = None /\ step y_cfg LSubClosed c = Some (c, [EvSub (ORes IoClosed)]) /\
      match run y_cfg [LInEnd; LPurge; LSub (SubscribeMulti (y_k 8) 4); LSub (ReceiveX 0); LSub (ReceiveX 0)] c with
      | Some (_, es) => exists f, es = [[]; []; [EvSub (ORes IoClosed)]; [EvSub (OX (XGot f))]; [EvSub (OX XEnded)]]
      | None => False
      end
  | None => False
  end.
Proof. vm_compute. repeat split. eexists. reflexivity. Qed.
