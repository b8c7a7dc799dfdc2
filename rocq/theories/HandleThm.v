(** C80: letting go of a client. *)
From Coq Require Import NArith List Bool Arith Lia Permutation.
From Verif Require Import KeyModel HeaderModel KeySpec HeaderSpec KeyProof HeaderProof MinKeyModel MinKeySpec MinKeyProof
  SchemaModel MacroModel PostcardModel DispatchModel DispatchSpec DispatchProof SubModel SubSpec SubProof
  ClientModel ClientSpec ClientProof ClientHist ClientMore ClientOut ClientThm ClientThm3.
From Verif Require Import UsbSpec FlowBase SubFlow FlowSpec FlowProof.
From Verif Require Import KeySpec HeaderModel HeaderSpec DispatchModel DispatchSpec DispatchThm SubModel SystemModel SystemSpec SystemProof SystemThm FlowThm
  LiveSpec LiveProof LiveThm AsyncModel AsyncSpec AsyncProof AsyncThm ChanModel ChanSysModel ChanSysSpec ChanSysProof ChanSysLive ChanSysThm
  ServedSpec ServedProof ServedThm HandleServe HandleCalls HandleModel HandleSpec HandleProof HandleChan.
Import ListNotations.

(** ** C80 Letting go of the client *)

(** *** In any system that contains a client *)
Section Any.
  Context {State L : Type}.
  Variable cfg : Config.
  Variable step_below : L -> State -> option (State * option (Label * list Ev)).
  Variable client_of : State -> Client.
  Variable as_below : Label -> L.
  Variable call_below : L -> bool.
  Hypothesis CC : contains_client cfg step_below client_of as_below call_below.
  Variable s0 : State.
  Hypothesis Hnew : client_of s0 = client_new.
  Notation h_step := (h_step State L step_below client_of as_below call_below).
  Notation h_run := (h_run State L step_below client_of as_below call_below).
  Notation h_client := (h_client State client_of).
  Variable ls : list (HLabel L).
  Variable s : HState State.
  Variable cl : list Label.
  Variable es : list (list Ev).
  Hypothesis Hrun : h_run ls (h_new State s0) = Some (s, cl, es).

  (** Unless the user calls [close] or the transport fails, the client is closed only
      after its last handle was dropped; and then everything it had accepted for sending
      has been given to the transport, in order, and no future of it is left. *)
  Theorem C80_open_while_held :
    ~ user_closed ls -> ~ transport_failed cl -> is_closed (h_client s) = true ->
    ~ held (h_handles _ s) /\ In (HEnd L) ls /\ everything_sent cl es /\ no_future (h_client s).
  Proof.
    intros Nu Nt Cl. unfold is_closed in Cl.
    destruct (h_open cfg step_below client_of as_below call_below CC s0 Hnew _ _ _ _ Hrun Nu Nt) as (_ & [X|(X1 & X2 & X3 & X4)]); [congruence|].
    split; [|split; [auto|split; [auto|apply X3]]]. intros Y. apply some_held in Y. congruence.
  Qed.

  (** No call is ever told that the client is closed, unless the user closed it or the
      transport failed. *)
  Theorem C80_nobody_is_refused :
    ~ user_closed ls -> ~ transport_failed cl -> nobody_refused es.
  Proof. intros Nu Nt. apply (h_open cfg step_below client_of as_below call_below CC s0 Hnew _ _ _ _ Hrun Nu Nt). Qed.

  (** Futures of the client keep a handle alive: once the last handle is gone every
      request and publication has returned or was dropped, and so has every call of
      [wait_closed]. *)
  Theorem C80_futures_hold :
    ~ held (h_handles _ s) ->
    no_future (h_client s) /\ forall i h, nth_error (hs_waits (h_handles _ s)) i <> Some (Some h).
  Proof.
    intros N. eapply (none_alive cfg client_of); [eapply h_inv; eauto|].
    destruct (some_alive (h_handles _ s)) eqn:A; auto. apply some_held in A. contradiction.
  Qed.

  (** Nothing else keeps it: a handle can be dropped as soon as every request and
      publication and every call of [wait_closed] has returned or was dropped, whatever the
      workers and subscriptions are doing. *)
  Theorem C80_can_be_dropped :
    forall h, alive (h_handles _ s) h = true ->
      no_future (h_client s) -> Forall (fun w => w = None) (hs_waits (h_handles _ s)) ->
      exists s', h_step (HDrop L h) s = Some (s', []) /\ alive (h_handles _ s') h = false.
  Proof.
    intros h A (F1 & F2) W. unfold HandleModel.h_step. rewrite A.
    assert (B : borrowed (h_handles _ s) (h_client s) h = false).
    { unfold borrowed. rewrite Forall_forall in F1, F2, W.
      destruct (existsb (req_borrows h) _) eqn:E1.
      { apply existsb_exists in E1 as ([q o] & I & X). apply in_combine_l in I. unfold req_borrows in X. cbn [fst snd] in X. rewrite (F1 _ I), andb_false_r in X. discriminate. }
      destruct (existsb (pub_borrows h) _) eqn:E2.
      { apply existsb_exists in E2 as ([q o] & I & X). apply in_combine_l in I. unfold pub_borrows in X. cbn [fst snd] in X. rewrite (F2 _ I), andb_false_r in X. discriminate. }
      destruct (existsb (wait_borrows h) _) eqn:E3; [|reflexivity].
      apply existsb_exists in E3 as (w & I & X). rewrite (W _ I) in X. discriminate. }
    rewrite B. cbn [negb andb]. eexists. split; [reflexivity|]. unfold alive in *. cbn [h_handles hs_alive].
    destruct (Nat.lt_ge_cases h (length (hs_alive (h_handles _ s)))) as [Hl|Hl].
    - apply nth_error_nth. now apply set_nth_same.
    - rewrite nth_overflow in A by exact Hl. discriminate.
  Qed.

  (** So, unless the user closed it or the transport failed: once the last handle is gone,
      every call that was made and not dropped was accepted for sending (or failed at once
      with [BadResponse], see C50). *)
  Theorem C80_everything_accepted :
    ~ user_closed ls -> ~ transport_failed cl -> ~ held (h_handles _ s) ->
    (forall r, r < length (issued 0 cl) -> ~ In (LCancel r) cl -> ~ In (r, BadResponse) (results es) -> In (inl r) (accepted cl es)) /\
    (forall i, i < length (published cl) -> ~ In (LPubCancel i) cl -> In (inr i) (accepted cl es)).
  Proof.
    intros Nu Nt Nh. destruct (C80_nobody_is_refused Nu Nt) as (Q1 & Q2). destruct (C80_futures_hold Nh) as ((F1 & F2) & _). rewrite Forall_forall in F1, F2.
    pose proof (hi_run _ _ _ _ _ (h_inv cfg step_below client_of as_below call_below CC s0 Hnew _ _ _ _ Hrun)) as R.
    destruct (reach_told cfg _ _ _ R) as [T1 T2]. split.
    - intros r Hr Nc Nb. destruct (reach_issued _ _ _ _ R) as (_ & Ln & _).
      destruct (nth_error (c_reqs (h_client s)) r) as [q|] eqn:Hq; [|apply nth_error_None in Hq; lia].
      destruct (T1 _ _ Hq (or_intror (F1 _ (nth_error_In _ _ Hq)))) as [X|[X|[X|X]]]; auto; [contradiction|contradiction|destruct (Q1 _ X)].
    - intros i Hi Nc. pose proof (reach_pubs _ _ _ _ R) as P.
      destruct (nth_error (c_pubs (h_client s)) i) as [o|] eqn:Hq; [|apply nth_error_None in Hq; destruct P; lia].
      rewrite (F2 _ (nth_error_In _ _ Hq)) in Hq. destruct (T2 _ Hq) as [X|[X|X]]; auto; [contradiction|destruct (Q2 _ X)].
  Qed.

  (** [wait_closed] returns only once the client is closed; and it stays closed. *)
  Theorem C80_wait_closed :
    forall i, In (HWaitDone L i) ls -> is_closed (h_client s) = true.
  Proof.
    intros i. revert ls s cl es Hrun.
    apply (h_ind step_below client_of as_below call_below (fun ls s cl es => In (HWaitDone L i) ls -> is_closed (h_client s) = true)); [intros []|].
    intros ls s cl es l s' x _ IH St Hi. pose proof (did cfg step_below client_of as_below call_below CC _ _ _ _ St) as D. apply did_run in D.
    apply in_app_iff in Hi as [Hi|[->|[]]].
    - eapply run_stopped; [exact D|exact (IH Hi)].
    - unfold HandleModel.h_step in St. destruct (nth_error _ _) as [[w|]|]; try discriminate. destruct (c_stopped _) eqn:C; [|discriminate]. injection St as <- _. exact C.
  Qed.
End Any.

(** *** A client by itself *)
Section Alone.
  Variable cfg : Config.
  Notation h_step := (h_step Client Label (client_below cfg) (fun c => c) (fun l => l) is_call).
  Notation h_run := (h_run Client Label (client_below cfg) (fun c => c) (fun l => l) is_call).
  (** The futures, the workers and a transport that takes every frame. *)
  Definition own_alone (l : Label) : bool := match l with LInEnd | LOutEnd false => true | l => own_step (SClient l) end.
  Variable ls : list (HLabel Label).
  Variable s : HState Client.
  Variable cl : list Label.
  Variable es : list (list Ev).
  Hypothesis Hrun : h_run ls (h_new Client client_new) = Some (s, cl, es).

  (** Once the last handle is gone and there is nothing left to do, the client is closed
      and both its workers have ended. *)
  Theorem C80_ends :
    ~ held (h_handles _ s) -> (forall l, h_own_step own_alone l = true -> h_step l s = None) ->
    is_closed (h_below _ s) = true /\ c_in_alive (h_below _ s) = false /\ c_out_alive (h_below _ s) = false.
  Proof.
    intros Nh Rst. pose proof (h_inv cfg _ _ _ _ (alone_contains cfg) client_new eq_refl _ _ _ _ Hrun) as HV.
    pose proof (hi_run _ _ _ _ _ HV) as R. unfold HandleModel.h_client in R. pose proof (reach_finv _ _ _ _ R) as F. pose proof (reach_cinv _ _ _ _ R) as HI.
    assert (G : forall l, own_alone l = true -> step cfg l (h_below _ s) = None).
    { intros l Hl. specialize (Rst (HGo _ l) Hl). cbn [HandleModel.h_step] in Rst.
      assert (Nc : is_call l = false) by (destruct l; try discriminate Hl; reflexivity). rewrite Nc in Rst. unfold client_below in Rst.
      destruct (step cfg l (h_below _ s)) as [[c e]|]; [discriminate|reflexivity]. }
    assert (A : some_alive (h_handles _ s) = false) by (destruct (some_alive (h_handles _ s)) eqn:A; auto; apply some_held in A; contradiction).
    assert (St : c_stopped (h_below _ s) = true).
    { destruct (c_stopped (h_below _ s)) eqn:St; auto. exfalso.
      assert (Ao : c_out_alive (h_below _ s) = true) by (destruct (c_out_alive (h_below _ s)) eqn:O; auto; rewrite (proj1 F O) in St; discriminate).
      assert (Sd : c_sending (h_below _ s) = None). { destruct (c_sending (h_below _ s)) eqn:X; auto. specialize (G LOutSent eq_refl). cbn [step] in G. rewrite X in G. discriminate. }
      assert (Ou : c_out (h_below _ s) = []). { destruct (c_out (h_below _ s)) eqn:X; auto. specialize (G LOutPop eq_refl). cbn [step] in G. rewrite Sd, X, Ao in G. discriminate. }
      specialize (Rst (HEnd _) eq_refl). cbn [HandleModel.h_step] in Rst. unfold HandleModel.h_client in Rst. rewrite Sd, Ou, A, Ao in Rst. cbn in Rst. rewrite Ao in Rst. discriminate. }
    split; [exact St|]. destruct (client_rest_ended cfg _ St F HI) as (X & Y & _); [|auto]. intros l Hl _. apply G. destruct Hl as [X|[-> | ->]]; auto. destruct l; try exact X; discriminate.
  Qed.
End Alone.

(** *** With a server at the other end of bounded channels *)
Section Chan.
  Context {Val Ctx SCtx : Type}.
  Variable std : StdKeys.
  Variable can_spawn : Trace Val SCtx -> nat -> bool.
  Variable kkind : VarKeyKind.
  Variable spawn_ctxt : Ctx -> Ctx * SCtx.
  Variable d : Dispatcher Val Ctx.
  Variable enc : Payload Val -> list N.
  Variable task : nat -> SCtx -> VarHeader -> Val -> HProg Val unit.
  Variable bg : list (HProg Val unit).
  Variable cfg : Config.
  Variable cap_up cap_down buf : nat.
  Notation c_step := (c_step Val Ctx SCtx std can_spawn kkind spawn_ctxt d enc task cfg cap_up cap_down buf).
  Notation c_run := (c_run Val Ctx SCtx std can_spawn kkind spawn_ctxt d enc task cfg cap_up cap_down buf).
  Notation a_step n := (a_step Val Ctx SCtx std n can_spawn kkind spawn_ctxt d enc task cfg).
  Notation a_run n := (a_run Val Ctx SCtx std n can_spawn kkind spawn_ctxt d enc task cfg).
  Notation CSys := (CSys Val Ctx SCtx).
  Notation cs_a := (cs_a Val Ctx SCtx).
  Notation h_step := (h_step CSys CLabel c_step cs_client CClient chan_call).
  Notation h_run := (h_run CSys CLabel c_step cs_client CClient chan_call).
  Variable ctx0 : Ctx.
  Variable ls : list (HLabel CLabel).
  Variable s : HState CSys.
  Variable cl : list Label.
  Variable es : list (list Ev).
  Hypothesis Hrun : h_run ls (h_new CSys (csys_new Val Ctx SCtx bg ctx0)) = Some (s, cl, es).
  Notation c := (h_below CSys s).
  Notation up := (y_up _ _ _ (a_sys Val Ctx SCtx (cs_a c))).

  Lemma c_hist : c_run (concat (map below ls)) (csys_new Val Ctx SCtx bg ctx0) = Some (c, cl, es).
  Proof. exact (below_run std can_spawn kkind spawn_ctxt d enc task cfg cap_up cap_down buf _ _ _ _ _ Hrun). Qed.

  (** Left to itself, the system comes to rest, handles or not. *)
  Theorem C80_own_steps_end :
    forall f : nat -> HState CSys,
      f 0 = s -> ~ (forall n, exists l x, h_own_step c_own_step l = true /\ h_step l (f n) = Some (f (S n), x)).
  Proof.
    intros f E H.
    assert (O : forall n, KInv cap_up cap_down (h_below _ (f n)) /\ FInv (cs_client (h_below _ (f n)))).
    { induction n as [|n [I1 I2]].
      - rewrite E. split; [exact (reach_k std can_spawn kkind spawn_ctxt d enc task bg cfg cap_up cap_down buf _ _ _ _ _ c_hist)|].
        eapply reach_finv, (reach_client std can_spawn kkind spawn_ctxt d enc task bg cfg cap_up cap_down buf _ _ _ _ _ c_hist).
      - destruct (H n) as (l & x & _ & Hs). exact (h_invs std can_spawn kkind spawn_ctxt d enc task cfg cap_up cap_down buf _ _ _ _ Hs I1 I2). }
    pose proof (h_less_wf (f 0)) as A.
    enough (G : forall s, Acc h_less s -> forall n, f n <> s) by exact (G _ A 0 eq_refl).
    clear A. intros s1 A. induction A as [s1 _ IH]. intros n <-. refine (IH (f (S n)) _ (S n) eq_refl). destruct (H n) as (l & x & Ho & Hs). destruct (O n). eapply own_h_less; eauto.
  Qed.

  Section Rest.
  Hypothesis Hup : 0 < cap_up.
  Hypothesis Hdown : 0 < cap_down.
  Hypothesis Hdepth : 0 < cfg_depth cfg.
  Hypothesis Hrest : forall l, h_own_step c_own_step l = true -> h_step l s = None.
  Hypothesis Hgone : ~ held (h_handles _ s).
  Hypothesis Hstop : cs_stopped _ _ _ c = false.

  Lemma chan_rest : forall l, c_own_step l = true -> c_step l c = None.
  Proof.
    intros l Hl. specialize (Hrest (HGo _ l) Hl). cbn [HandleModel.h_step] in Hrest.
    assert (Nc : chan_call l = false) by (destruct l as [l| | | | | |]; try reflexivity; destruct l; try discriminate Hl; reflexivity). rewrite Nc in Hrest.
    destruct (c_step l c) as [[c1 ce]|]; [discriminate|reflexivity].
  Qed.
  Lemma gone_closed : is_closed (cs_client c) = true.
  Proof.
    destruct (is_closed (cs_client c)) eqn:Cl; auto. exfalso.
    destruct (chan_rest_link std can_spawn kkind spawn_ctxt d enc task bg cfg cap_up cap_down buf _ _ _ _ _ c_hist Hup Hdown chan_rest Cl Hstop) as (net & ls' & R & _ & Rst & _).
    destruct (a_rest_client std net can_spawn kkind spawn_ctxt d enc task bg cfg _ _ _ _ _ R Rst) as [Rc Q].
    destruct (rest_accepts _ _ _ _ Rc Cl Hdepth Q) as (Al & Sd & Ou & _).
    assert (A : some_alive (h_handles _ s) = false) by (destruct (some_alive (h_handles _ s)) eqn:A; auto; apply some_held in A; contradiction).
    specialize (Hrest (HEnd _) eq_refl). cbn [HandleModel.h_step] in Hrest. unfold HandleModel.h_client in Hrest. unfold cs_client at 1 2 in Hrest. rewrite Sd, Ou, A in Hrest.
    unfold cs_client in Hrest. rewrite Al in Hrest. cbn [negb andb] in Hrest.
    destruct (c_step (CClient LClose) c) as [[c1 ce1]|] eqn:E1.
    - destruct (c_step (CClient (LOutEnd false)) c1) as [[c2 ce2]|] eqn:E2; [discriminate|].
      pose proof (chan_client std can_spawn kkind spawn_ctxt d enc task cfg cap_up cap_down buf _ _ _ _ E1) as S1.
      destruct (chan_as std can_spawn kkind spawn_ctxt d enc task cfg cap_up cap_down buf _ _ _ _ E1) as (e1 & ->).
      cbn [ChanSysModel.c_step] in E2. apply client_none in E2; [|discriminate]. cbn [step] in S1. injection S1 as S1 _. rewrite <- S1 in E2. cbn [step c_stopped c_out_alive andb] in E2.
      unfold cs_client in E2. rewrite Al in E2. discriminate.
    - cbn [ChanSysModel.c_step] in E1. apply client_none in E1; [|discriminate]. discriminate.
  Qed.

  (** Once the last handle is gone and the system has come to rest, the client is closed
      and [Server::run] has returned. *)
  Theorem C80_server_returns : is_closed (cs_client c) = true /\ run_returned c /\ tasks_done c.
  Proof.
    split; [exact gone_closed|]. split.
    - apply (C78_stop std can_spawn kkind spawn_ctxt d enc task bg cfg cap_up cap_down buf _ _ _ _ _ c_hist Hup Hdown chan_rest). right. exact gone_closed.
    - apply (C78_no_deadlock std can_spawn kkind spawn_ctxt d enc task bg cfg cap_up cap_down buf _ _ _ _ _ c_hist Hup Hdown chan_rest).
  Qed.

  Variable eps : EndpointMap.
  Variable tin tout : TopicMap.
  Variable ea : list (EpArm Val Ctx).
  Variable ta : list (TpArm Val Ctx).
  Hypothesis Hdisp : dispatcher_for eps tin tout ea ta d.
  Hypothesis Hdev : device_ok std eps tout ea.
  Hypothesis Hhand : handlers_ok std tout ea ta task bg.
  Hypothesis Hkk : klen (d_kind _ _ d) <= klen kkind.
  Hypothesis Hlab : Forall (label_ok eps tin) cl.
  Hypothesis Huser : ~ user_closed ls.
  Hypothesis Hdrop : cs_dropped _ _ _ c = false.
  Hypothesis Hroom : all_spawned (cs_trace c).

  Lemma gone_sent : everything_sent cl es.
  Proof.
    apply (C80_open_while_held cfg c_step cs_client CClient chan_call (chan_contains std can_spawn kkind spawn_ctxt d enc task cfg cap_up cap_down buf) (csys_new Val Ctx SCtx bg ctx0) eq_refl _ _ _ _ Hrun Huser); [|exact gone_closed].
    pose proof (proj2 (fails_run std can_spawn kkind spawn_ctxt d enc task cfg cap_up cap_down buf _ _ _ _ _ c_hist) Hdrop) as N. intros [X|(b & X)]; apply N in X; destruct X as [X Y]; [congruence|destruct (Y b eq_refl)].
  Qed.

  (** If [Server::run] returned because there was nothing left to receive (and not because
      a reply could not be sent to the client that is gone), then everything that the
      client ever accepted, for which there is a handler and whose frame fits the server's
      buffer, has been handled: exactly once, in order. *)
  Theorem C80_nothing_left_behind :
    cs_ended _ _ _ c = true ->
    exists calls,
      ran_for ea ta cl es (cs_trace c) calls /\ subsequence calls (accepted cl es) /\
      forall x, In x (accepted cl es) -> has_handler std ea ta cl x -> In x calls \/ exists b, call_frame cl x b /\ buf < length b.
  Proof.
    intros Hend.
    assert (Fn : FInv (cs_client (csys_new Val Ctx SCtx bg ctx0))) by exact (reach_finv cfg [] _ [] eq_refl).
    assert (Dr : drained c). { eapply (drained_run std can_spawn kkind spawn_ctxt d enc task cfg cap_up cap_down buf); [exact c_hist|exact Fn|]. intros X. discriminate. }
    destruct (Dr Hend) as [X|[_ Up]]; [congruence|].
    assert (Cu : a_cur _ _ _ (cs_a c) = None) by (apply (C78_no_deadlock std can_spawn kkind spawn_ctxt d enc task bg cfg cap_up cap_down buf _ _ _ _ _ c_hist Hup Hdown chan_rest)).
    destruct (C78_as_over_a_link std can_spawn kkind spawn_ctxt d enc task bg cfg cap_up cap_down buf _ _ _ _ _ c_hist) as (net & la & Ra & _ & U & _ & Lu & _).
    destruct (reach_sim std net can_spawn kkind spawn_ctxt d enc task bg cfg _ _ _ _ _ Ra) as (ls' & sy & R & Rl & Ok & L & Lo). specialize (R [] []). specialize (Lo [] []).
    destruct (C79_accounted std _ _ kkind spawn_ctxt enc task bg cfg eps tin tout ea ta d Hdisp Hdev Hhand Hkk _ _ _ _ _ R Hlab)
      as (heard & missing & calls & dropped & P & FM & _ & Len & FC & SC & ND & AC & OC).
    destruct gone_sent as (frames & G1 & G2).
    assert (dropped = []) as ->. { destruct dropped; auto. apply Forall2_len in G1. apply (f_equal (@length _)) in G2. rewrite map_length in G2. cbn in Len. lia. }
    rewrite (ar_up _ _ _ _ Rl), Up, (proj1 Lo) in FM. cbn [app] in FM. rewrite app_nil_r in FM.
    assert (St : starts (y_trace _ _ _ sy) = starts (cs_trace c)) by exact (ar_starts _ _ _ _ Rl).
    rewrite starts_invocations, St, <- starts_invocations in FC.
    assert (Hroom' : all_spawned (y_trace _ _ _ sy)).
    { intros n sc h v Hi. apply (Hroom n sc h v). apply starts_in; [exact Logic.I|]. rewrite <- St. apply in_starts; [exact Logic.I|exact Hi]. }
    assert (Inc : incl calls (accepted cl es)).
    { intros x Hx. eapply Permutation_in; [apply Permutation_sym, P|]. apply in_app_iff. left. eapply subseq_in; eauto. }
    exists calls. split. { split; auto. split; [eapply subseq_nodup; eauto|auto]. }
    split. { eapply subseq_trans; [apply OC, (like_up_in_order _ _ L), U|exact SC]. }
    intros x Hx Hh. apply (Permutation_in _ P) in Hx. apply in_app_iff in Hx as [Hx|X]; [left; apply AC; auto|right].
    assert (Y : exists b, In b (a_lost (a_step net) loses_up la (asys_new Val Ctx SCtx bg ctx0)) /\ call_frame cl x b).
    { clear - FM X. induction FM as [|y b ys bs Hy FM IH]; [destruct X|]. destruct X as [->|X]; [exists b; split; [left|]; auto|]. destruct (IH X) as (b' & B1 & B2). exists b'. split; [right|]; auto. }
    destruct Y as (b & B1 & B2). exists b. auto.
  Qed.

  (** A client that only published, and only on topics with handlers, can be dropped right
      after its last publication was accepted: nothing is left behind. *)
  Theorem C80_fire_and_forget :
    issued 0 cl = [] ->
    (forall f, In f (published cl) -> exists a, In a ta /\ hdr_key (f_hdr f) = VKey8 (ta_key _ _ a)) ->
    cs_ended _ _ _ c = true /\
    exists calls,
      ran_for ea ta cl es (cs_trace c) calls /\ subsequence calls (accepted cl es) /\
      forall x, In x (accepted cl es) -> has_handler std ea ta cl x -> In x calls \/ exists b, call_frame cl x b /\ buf < length b.
  Proof.
    intros Hi Hp. refine ((fun E => conj E (C80_nothing_left_behind E)) _).
    destruct C80_server_returns as (_ & (Cu & [X|X]) & _); [exact X|exfalso].
    destruct (C78_as_over_a_link std can_spawn kkind spawn_ctxt d enc task bg cfg cap_up cap_down buf _ _ _ _ _ c_hist) as (net & la & Ra & _).
    destruct (C73_as_if_at_once std net can_spawn kkind spawn_ctxt d enc task bg cfg ctx0 la _ _ _ Ra) as (net' & can' & ls2 & sy & more & R2 & _ & _ & _ & _ & P & Y & _).
    destruct (Y Cu) as (_ & _ & Y1 & _). rewrite X in Y1.
    eapply quiet_serves in Y1; eauto.
  Qed.
  End Rest.
End Chan.

Print Assumptions C80_open_while_held.
Print Assumptions C80_nobody_is_refused.
Print Assumptions C80_futures_hold.
Print Assumptions C80_can_be_dropped.
Print Assumptions C80_everything_accepted.
Print Assumptions C80_wait_closed.
Print Assumptions C80_ends.
Print Assumptions C80_own_steps_end.
Print Assumptions C80_server_returns.
Print Assumptions C80_nothing_left_behind.
Print Assumptions C80_fire_and_forget.
