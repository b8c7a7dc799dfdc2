(** Property theorems C13 and C14: the server loop. *)
From Coq Require Import NArith List Bool Arith Lia.
From Verif Require Import KeyModel HeaderModel KeySpec HeaderSpec HeaderProof SchemaModel MacroModel
  DispatchModel DispatchSpec DispatchProof DispatchThm ServerModel ServerSpec ServerProof.
Import ListNotations.

(** ** C13 The server survives everything but a dead link *)

(** For every finite history of receive results and every behaviour of the
    dispatcher: the loop has dispatched exactly the well-formed frames of what it
    consumed, once each and in order; and it returned only if the last thing
    that happened was a closed receiver or a fatal transmit result. *)
Theorem C13_run :
  forall (St : Type) (handle : St -> VarHeader -> list N -> St * TxRes) st rxs st' status rest,
    Forall rx_ok rxs -> run St handle st rxs = (st', status, rest) ->
    exists consumed frames rs,
      rxs = consumed ++ rest /\ frames_of consumed frames /\ dispatched handle st frames rs st' /\
      match status with
      | Waiting => rest = [] /\ (forall r, In r rs -> ~ fatal r) /\ ~ In (RxErr RxConnectionClosed) consumed
      | Returned (RxFatal k) => k = RxConnectionClosed /\ (forall r, In r rs -> ~ fatal r) /\
          exists pre, consumed = pre ++ [RxErr RxConnectionClosed] /\ ~ In (RxErr RxConnectionClosed) pre
      | Returned (TxFatal k) => exists rs0, rs = rs0 ++ [TxErr k] /\ fatal (TxErr k) /\
          (forall r, In r rs0 -> ~ fatal r) /\ ~ In (RxErr RxConnectionClosed) consumed
      | RunPanicked => False
      end.
Proof. intros St handle st rxs st' status rest. apply run_spec. Qed.
Print Assumptions C13_run.

(** Infinite histories: a server whose receiver never reports a closed link and
    whose dispatcher never reports a fatal transmit error never returns. *)
Theorem C13_never_stops :
  forall (St : Type) (handle : St -> VarHeader -> list N -> St * TxRes) st (rx : nat -> RxRes),
    (forall i, rx_ok (rx i)) -> (forall i, rx i <> RxErr RxConnectionClosed) ->
    (forall s h b, ~ fatal (snd (handle s h b))) ->
    forall n, exists st', run St handle st (map rx (seq 0 n)) = (st', Waiting, []).
Proof.
  intros St handle st rx Hok Hrx Hh n. destruct (run St handle st (map rx (seq 0 n))) as [[st' status] rest] eqn:E.
  assert (Forall rx_ok (map rx (seq 0 n))) as F.
  { apply Forall_forall. intros r Hr. apply in_map_iff in Hr. destruct Hr as (i & <- & _). auto. }
  assert (NC : ~ In (RxErr RxConnectionClosed) (map rx (seq 0 n))).
  { intros Hr. apply in_map_iff in Hr. destruct Hr as (i & Hi & _). now apply (Hrx i). }
  destruct (run_spec handle _ _ _ _ _ F E) as (c & frs & rs & Ec & _ & D & M).
  assert (NF : forall r, In r rs -> ~ fatal r).
  { clear - D Hh. induction D as [|? ? ? ? ? ? ? ? Ha]; intros x Hx; [destruct Hx|].
    destruct Hx as [<-|Hx]; auto. specialize (Hh st h b). now rewrite Ha in Hh. }
  destruct status as [|[k|k]|].
  - destruct M as (-> & _). eauto.
  - destruct M as (rs0 & -> & Ff & _). exfalso. apply (NF (TxErr k)); auto. apply in_app_iff; cbn; auto.
  - destruct M as (_ & _ & pre & -> & _). exfalso. apply NC. rewrite Ec. apply in_app_iff. left. apply in_app_iff; cbn; auto.
  - destruct M.
Qed.
Print Assumptions C13_never_stops.

(** The frames a history contains are determined by the history. *)
Theorem C13_frames_determined :
  forall rxs f1 f2, Forall rx_ok rxs -> frames_of rxs f1 -> frames_of rxs f2 -> f1 = f2.
Proof.
  assert (A : forall rxs f, Forall rx_ok rxs -> frames_of rxs f ->
    f = flat_map (fun r => match r with RxFrame u =>
       match take_from_slice u with Done (Some hb) => [hb] | _ => [] end | _ => [] end) rxs).
  { intros rxs f Hok F. induction F as [|k rxs l F IH|used rxs l Nb F IH|e h body rxs l Hh He F IH];
      inversion Hok as [|? ? Ho Hok']; subst; cbn [flat_map]; auto.
    - cbn in Ho. destruct (take_total used Ho) as [[[h b]|] Ht]; rewrite Ht; [|auto].
      exfalso. apply Nb. apply accept_iff; eauto.
    - apply is_encoding_unique in He; auto. subst e. rewrite take_write by auto. cbn. f_equal. auto. }
  intros rxs f1 f2 Hok H1 H2. rewrite (A _ _ Hok H1), (A _ _ Hok H2). reflexivity.
Qed.
Print Assumptions C13_frames_determined.

(** The dispatcher plugged into the loop: the state is the context and the
    history of the sender. *)
Definition serve_step {Val Ctx SCtx} std net can_spawn kkind spawn_ctxt d
    (st : Ctx * Trace Val SCtx) (h : VarHeader) (b : list N) : (Ctx * Trace Val SCtx) * TxRes :=
  let '(c, r, tr) := handle Val Ctx SCtx std net can_spawn kkind spawn_ctxt d (fst st) h b (snd st) in ((c, tr), r).

Definition x_serve net := @serve_step N N N x_std net (fun _ _ => true) KK1 (fun c => (c, c)) x_disp.

Example C13_nontrivial :
  let rxs := [RxFrame [0; 10; 1; 30]; RxErr RxTooLarge; RxFrame [255]; RxErr RxOther;
              RxFrame [0; 10; 2; 40]; RxErr RxConnectionClosed; RxFrame []]%N in
  let '((c, tr), status, rest) := run _ (x_serve x_net) (0%N, []) rxs in
  c = 2%N /\ status = Returned (RxFatal RxConnectionClosed) /\ rest = [RxFrame []] /\
  invocations tr = [(7, MkHeader (VKey1 (K1 10)) (Seq1 1), 30%N); (7, MkHeader (VKey1 (K1 10)) (Seq1 2), 40%N)].
Proof. vm_compute. repeat split. Qed.

(** ** C14 A transmit timeout stops the loop *)

(** Refuted: the reply times out, then the error frame that replaces it goes
    through, and the loop carries on. *)
Definition x_net_timeout : Trace N N -> VarHeader -> Payload N -> TxRes :=
  fun _ _ p => match p with PVal _ => TxErr TxTimeout | _ => TxOk end.
Theorem C14_timeout_stops_refuted :
  exists (net : Trace N N -> VarHeader -> Payload N -> TxRes) (rxs : list RxRes) c tr h p,
    run _ (x_serve net) (0%N, []) rxs = ((c, tr), Waiting, []) /\
    In (EvSend ByDispatcher h p (TxErr TxTimeout)) tr.
Proof.
  exists x_net_timeout, [RxFrame [0; 10; 1; 30]%N]. do 4 eexists. split; [vm_compute; reflexivity|].
  cbn. right. left. reflexivity.
Qed.
Print Assumptions C14_timeout_stops_refuted.

(** The true part: if the last frame the dispatcher attempted for a request times
    out, the loop returns that timeout.  (Missing for the full claim: a timed-out
    reply whose replacement error frame is accepted.) *)
Theorem C14_timeout_stops_partial :
  forall {Val Ctx SCtx} std net can_spawn kkind spawn_ctxt (d : Dispatcher Val Ctx)
         ctx (tr : Trace Val SCtx) hdr body rest st' res new l h p,
    header_ok hdr ->
    serve_step std net can_spawn kkind spawn_ctxt d (ctx, tr) hdr body = (st', res) ->
    snd st' = tr ++ new -> dispatcher_frames new = l ++ [(h, p, TxErr TxTimeout)] ->
    run _ (serve_step std net can_spawn kkind spawn_ctxt d) (ctx, tr) (RxFrame (frame_to_bytes hdr body) :: rest)
      = (st', Returned (TxFatal TxTimeout), rest).
Proof.
  intros Val Ctx SCtx std net can_spawn kkind spawn_ctxt d ctx tr hdr body rest st' res new l h p Hh E En F.
  cbn [run]. unfold frame_to_bytes. rewrite take_write by auto. rewrite E.
  unfold serve_step in E. cbn [fst snd] in E.
  destruct (handle Val Ctx SCtx std net can_spawn kkind spawn_ctxt d ctx hdr body tr) as [[c r] tr'] eqn:Eh.
  injection E as <- <-. cbn [snd] in En. subst tr'.
  destruct (handle_last _ _ _ _ _ _ _ _ _ _ _ _ _ Eh) as (new' & En & M).
  apply app_inv_head in En. subst new'. rewrite F in M. destruct M as [[M _]|(l' & h' & p' & M)].
  - destruct l; discriminate.
  - apply app_inj_tail in M. destruct M as [_ M]. injection M as _ _ <-. reflexivity.
Qed.
Print Assumptions C14_timeout_stops_partial.

(** In particular when everything times out. *)
Theorem C14_all_timeouts :
  forall {Val Ctx SCtx} std (net : Trace Val SCtx -> VarHeader -> Payload Val -> TxRes)
         can_spawn kkind spawn_ctxt (d : Dispatcher Val Ctx) ctx tr hdr body rest,
    header_ok hdr -> (forall t h p, net t h p = TxErr TxTimeout) ->
    forall st' status rest',
    run _ (serve_step std net can_spawn kkind spawn_ctxt d) (ctx, tr) (RxFrame (frame_to_bytes hdr body) :: rest)
      = (st', status, rest') ->
    dispatcher_frames (snd (fst (serve_step std net can_spawn kkind spawn_ctxt d (ctx, tr) hdr body))) <> dispatcher_frames tr ->
    status = Returned (TxFatal TxTimeout) /\ rest' = rest.
Proof.
  intros Val Ctx SCtx std net can_spawn kkind spawn_ctxt d ctx tr hdr body rest Hh Hn st' status rest' R Ne.
  cbn [run] in R. unfold frame_to_bytes in R. rewrite take_write in R by auto.
  unfold serve_step at 1 in R. unfold serve_step in Ne. cbn [fst snd] in R, Ne.
  destruct (handle Val Ctx SCtx std net can_spawn kkind spawn_ctxt d ctx hdr body tr) as [[c r] tr'] eqn:Eh.
  cbn [fst snd] in Ne. destruct (handle_last _ _ _ _ _ _ _ _ _ _ _ _ _ Eh) as (new & -> & M).
  rewrite dispatcher_frames_app in Ne. destruct M as [[M _]|(l & h & p & M)].
  - rewrite M, app_nil_r in Ne. congruence.
  - assert (r = TxErr TxTimeout).
    { eapply (handle_sent_by_net std net can_spawn kkind spawn_ctxt _ Hn); [exact Eh|].
      rewrite M. apply in_app_iff. right. left. reflexivity. }
    subst r. injection R as <- <- <-. auto.
Qed.
Print Assumptions C14_all_timeouts.

Example C14_nontrivial :
  snd (fst (run _ (x_serve (fun _ _ _ => TxErr TxTimeout)) (0%N, []) [RxFrame [0; 10; 1; 30]; RxFrame [0; 10; 2; 30]]%N))
  = Returned (TxFatal TxTimeout).
Proof. vm_compute. reflexivity. Qed.
