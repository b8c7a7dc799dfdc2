(** Theorems about the threads of the server: C77. *)
From Coq Require Import NArith List Bool Arith Lia Permutation.
From Verif Require Import KeyModel HeaderModel KeySpec HeaderSpec MinKeyModel MinKeySpec
  SchemaModel MacroModel PostcardModel DispatchModel DispatchSpec SubModel SubSpec SubProof ClientModel ClientSpec UsbSpec.
From Verif Require Import DispatchModel DispatchSpec SystemModel SystemSpec SystemProof FlowSpec LiveSpec LiveProof
  AsyncModel AsyncSpec AsyncProof AsyncThm MissSpec MissThm ThreadsSpec ThreadsProof.
Import ListNotations.

Lemma part_subsequence {Val SCtx} t owners : forall tr : Trace Val SCtx, subsequence (part_of t owners tr) tr.
Proof.
  unfold part_of. induction owners as [|o owners IH]; intros tr; [constructor|]. destruct tr as [|e tr]; [constructor|]. cbn [combine filter fst].
  destruct (thread_eqb o t); cbn [map snd]; constructor; auto.
Qed.
Lemma subsequence_app {A} (x l1 l2 : list A) : subsequence l1 l2 -> subsequence (x ++ l1) (x ++ l2).
Proof. induction x; cbn; auto. constructor. auto. Qed.
Lemma subsequence_skip {A} (x l1 l2 : list A) : subsequence l1 l2 -> subsequence l1 (x ++ l2).
Proof. induction x; cbn; auto. constructor. auto. Qed.
Lemma subsequence_flat_map {A B} (g : A -> list B) l1 l2 : subsequence l1 l2 -> subsequence (flat_map g l1) (flat_map g l2).
Proof.
  induction 1; cbn.
  - constructor.
  - now apply subsequence_app.
  - now apply subsequence_skip.
Qed.

Section T.
  Context {Val Ctx SCtx : Type}.
  Variable std : StdKeys.
  Variable net : Trace Val SCtx -> VarHeader -> Payload Val -> TxRes.
  Variable can_spawn : Trace Val SCtx -> nat -> bool.
  Variable kkind : VarKeyKind.
  Variable spawn_ctxt : Ctx -> Ctx * SCtx.
  Variable d : Dispatcher Val Ctx.
  Variable enc : Payload Val -> list N.
  Variable task : nat -> SCtx -> VarHeader -> Val -> HProg Val unit.
  Variable bg : list (HProg Val unit).
  Variable cfg : Config.

  Notation a_step := (a_step Val Ctx SCtx std net can_spawn kkind spawn_ctxt d enc task cfg).
  Notation a_run := (a_run Val Ctx SCtx std net can_spawn kkind spawn_ctxt d enc task cfg).
  Notation handle n c := (handle Val Ctx SCtx std n c kkind spawn_ctxt d).
  Notation a_sys := (a_sys Val Ctx SCtx).
  Notation a_cur := (a_cur Val Ctx SCtx).
  Notation y_trace := (y_trace Val Ctx SCtx).
  Notation y_ctx := (y_ctx Val Ctx SCtx).
  Notation y_tasks := (y_tasks Val Ctx SCtx).

  Lemma rest_tasks a ctx0 bs owners : TInv std kkind spawn_ctxt d task bg ctx0 bs owners a ->
    (forall l, a_own_step l = true -> a_step l a = None) ->
    forall i p, nth_error (programs task bg (y_trace (a_sys a))) i = Some p -> says kkind p (part_of (Some i) owners (y_trace (a_sys a))) (HRet tt).
  Proof.
    intros I R i p Hp. destruct (ti_says _ _ _ _ _ _ _ _ _ _ I _ _ Hp) as (c & Hc & S).
    specialize (R (ASystem (STask i)) eq_refl). cbn [AsyncModel.a_step SystemModel.sys_step] in R. rewrite Hc in R.
    destruct c as [[]|key seq pl k]; [exact S|]. destruct (send_keyed _ _ _ _ _ _ _ _ _). discriminate.
  Qed.
  Lemma rest_cur a : a_ok a -> (forall l, a_own_step l = true -> a_step l a = None) -> a_cur a = None.
  Proof.
    intros Ok R. specialize (R AResume eq_refl). cbn [AsyncModel.a_step] in R. unfold a_ok in Ok.
    destruct (a_cur a) as [[| | |w h pl k]|]; auto; [destruct Ok as [_ []]..|discriminate].
  Qed.

  Section One.
  Variable ctx0 : Ctx.
  Variable ls : list ALabel.
  Variable a : ASys Val Ctx SCtx.
  Variable cl : list Label.
  Variable es : list (list Ev).
  Hypothesis Hrun : a_run ls (asys_new Val Ctx SCtx bg ctx0) = Some (a, cl, es).
  Notation tr := (y_trace (a_sys a)).

  (** ** C77 Dispatcher and tasks do not get in each other's way *)

  (** Everything that the server did is due to one of its threads.  Every task has done
      the first part of its own program, in order.  The rest is what a dispatcher does
      that handles the frames that the server took, one after the other and each at
      once, with no task around, if its transmissions end like they ended here; it may
      not be done with the last of the frames yet. *)
  Theorem C77_threads :
    exists owners net' can_spawn' more,
      length owners = length tr /\
      (forall i, In (Some i) owners -> i < length (programs task bg tr)) /\
      (forall i p, nth_error (programs task bg tr) i = Some p -> exists rest, says kkind p (part_of (Some i) owners tr) rest) /\
      snd (dispatch_all (handle net' can_spawn') (taken a_step ls (asys_new Val Ctx SCtx bg ctx0)) ctx0 []) = part_of None owners tr ++ more /\
      (a_cur a = None ->
         more = [] /\ fst (dispatch_all (handle net' can_spawn') (taken a_step ls (asys_new Val Ctx SCtx bg ctx0)) ctx0 []) = y_ctx (a_sys a)).
  Proof.
    destruct (run_inv std kkind spawn_ctxt d enc task bg cfg net can_spawn ctx0 ls [] [] (asys_new Val Ctx SCtx bg ctx0) _ _ _ Logic.I (new_inv _ _ _ _ _ _ ctx0) Hrun) as (owners & I).
    cbn [app] in I. destruct I as [L Lt V Sy W].
    destruct (worked_all std kkind spawn_ctxt d enc task net can_spawn _ _ _ _ _ W _ [] (eq_sym (app_nil_r _))) as (more & A & B).
    exists owners. do 2 eexists. exists more. split; [exact L|]. split; [intros i Hi; rewrite <- Lt; auto|].
    split; [intros i p Hp; destruct (Sy _ _ Hp) as (c & _ & S); eauto|]. split; [exact A|]. intros C. destruct (B C). auto.
  Qed.

  (** When the system has come to rest, every task has done all of its program, and the
      dispatcher is done with every frame that the server took. *)
  Theorem C77_all_said :
    (forall l, a_own_step l = true -> a_step l a = None) ->
    exists owners net' can_spawn',
      length owners = length tr /\
      (forall i, In (Some i) owners -> i < length (programs task bg tr)) /\
      (forall i p, nth_error (programs task bg tr) i = Some p -> says kkind p (part_of (Some i) owners tr) (HRet tt)) /\
      dispatch_all (handle net' can_spawn') (taken a_step ls (asys_new Val Ctx SCtx bg ctx0)) ctx0 [] = (y_ctx (a_sys a), part_of None owners tr).
  Proof.
    intros R. destruct (run_inv std kkind spawn_ctxt d enc task bg cfg net can_spawn ctx0 ls [] [] (asys_new Val Ctx SCtx bg ctx0) _ _ _ Logic.I (new_inv _ _ _ _ _ _ ctx0) Hrun) as (owners & I).
    cbn [app] in I. pose proof (rest_tasks _ _ _ _ I R) as RT. destruct I as [L Lt V Sy W].
    destruct (worked_all std kkind spawn_ctxt d enc task net can_spawn _ _ _ _ _ W _ [] (eq_sym (app_nil_r _))) as (more & A & B).
    destruct (reach_sim std net can_spawn kkind spawn_ctxt d enc task bg cfg ctx0 ls a cl es Hrun) as (_ & _ & _ & _ & Ok & _).
    destruct (B (rest_cur _ Ok R)) as [B1 ->]. rewrite app_nil_r in A.
    exists owners. do 2 eexists. split; [exact L|]. split; [intros i Hi; rewrite <- Lt; auto|]. split; [exact RT|].
    rewrite (surjective_pairing (dispatch_all _ _ _ _)), A, B1. reflexivity.
  Qed.
  End One.

  (** *** What a subscriber hears of a task *)
  Variable eps : EndpointMap.
  Variable tin tout : TopicMap.
  Variable ea : list (EpArm Val Ctx).
  Variable ta : list (TpArm Val Ctx).
  Hypothesis Hdisp : dispatcher_for eps tin tout ea ta d.
  Hypothesis Hdev : device_ok std eps tout ea.
  Hypothesis Hkk : klen (d_kind _ _ d) <= klen kkind.
  Hypothesis Hhand : handlers_ok std tout ea ta task bg.
  Variable ctx0 : Ctx.
  Variables (k : Key8) (depth id : nat).
  Variable ls1 ls2 : list ALabel.
  Variable a1 a2 a : ASys Val Ctx SCtx.
  Variable cl1 cl2 : list Label.
  Variable es1 es2 : list (list Ev).
  Hypothesis Hrun1 : a_run ls1 (asys_new Val Ctx SCtx bg ctx0) = Some (a1, cl1, es1).
  Hypothesis Hrun2 : a_run ls2 a2 = Some (a, cl2, es2).
  Hypothesis Hlab1 : Forall (label_ok eps tin) cl1.
  Hypothesis Hlab2 : Forall (label_ok eps tin) cl2.
  Hypothesis Hrecv : still_receiving (cl1 ++ cl2).
  Hypothesis Hkeeps : keeps_down (system_labels ls2).
  Hypothesis Horder : down_in_order (system_labels ls2).
  Hypothesis Hrest : forall l, a_own_step l = true -> a_step l a = None.

  Lemma split_says o e new : a_run [ASystem (SClient (LSub o))] a1 = Some (a2, [LSub o], e) ->
    y_trace (a_sys a) = y_trace (a_sys a1) ++ new ->
    forall i p, nth_error (programs task bg (y_trace (a_sys a))) i = Some p ->
    exists before after, says kkind p (before ++ after) (HRet tt) /\ subsequence before (y_trace (a_sys a1)) /\ subsequence after new.
  Proof.
    intros Hs Et i p Hp.
    destruct (run_inv std kkind spawn_ctxt d enc task bg cfg net can_spawn ctx0 ls1 [] [] (asys_new Val Ctx SCtx bg ctx0) _ _ _ Logic.I (new_inv _ _ _ _ _ _ ctx0) Hrun1) as (o1 & I1).
    destruct (reach_sim std net can_spawn kkind spawn_ctxt d enc task bg cfg ctx0 ls1 a1 cl1 es1 Hrun1) as (_ & _ & _ & _ & Ok1 & _).
    destruct (run_inv std kkind spawn_ctxt d enc task bg cfg net can_spawn ctx0 _ _ _ _ _ _ _ Ok1 I1
      (run_then std net can_spawn kkind spawn_ctxt d enc task cfg _ _ _ _ _ _ _ _ _ Hs Hrun2)) as (o2 & I2).
    cbn [app] in I1, I2. pose proof (rest_tasks _ _ _ _ I2 Hrest _ _ Hp) as S. rewrite Et in S.
    rewrite part_app in S by exact (ti_len _ _ _ _ _ _ _ _ _ _ I1).
    exists (part_of (Some i) o1 (y_trace (a_sys a1))), (part_of (Some i) o2 new). split; [exact S|]. split; apply part_subsequence.
  Qed.

  (** A subscriber that misses nothing hears all that any task, spawned or there from the
      start, has to say on its topic, in the task's order, except what the task said
      before the subscription. *)
  Theorem C77_tasks_are_heard :
    a_run [ASystem (SClient (LSub (SubscribeExclusive k depth)))] a1 = Some (a2, [LSub (SubscribeExclusive k depth)], [[EvSub (ORes (Subscribed id))]]) ->
    kept cl2 k id -> only_topic kkind k (cl1 ++ LSub (SubscribeExclusive k depth) :: cl2) ->
    patient cl2 cfg \/ keeps_up cl2 es2 k id depth ->
    found_empty cl2 es2 id ->
    forall i p, nth_error (programs task bg (y_trace (a_sys a))) i = Some p ->
    exists before after, says kkind p (before ++ after) (HRet tt) /\
      subsequence before (y_trace (a_sys a1)) /\ subsequence (messages enc after k) (given cl2 es2 id).
  Proof.
    intros Hs K O G Fe i p Hp.
    destruct (C75_all_received std net can_spawn kkind spawn_ctxt d enc task bg cfg eps tin tout ea ta Hdisp Hdev Hkk Hhand ctx0 k depth id
      ls1 ls2 a1 a2 a cl1 cl2 es1 es2 Hrun1 Hrun2 Hlab1 Hlab2 Hrecv Hkeeps Hrest Hs K O G Fe) as (new & T & _ & Q).
    destruct (split_says _ _ _ Hs T i p Hp) as (before & after & S & B & A). exists before, after. split; [exact S|]. split; [exact B|].
    rewrite (Q Horder). apply subsequence_skip. unfold messages. apply subsequence_flat_map. exact A.
  Qed.

  Theorem C77_tasks_are_heard_multi :
    a_run [ASystem (SClient (LSub (SubscribeMulti k depth)))] a1 = Some (a2, [LSub (SubscribeMulti k depth)], [[EvSub (ORes (Subscribed id))]]) ->
    kept_multi cl2 id -> only_topic kkind k (cl1 ++ LSub (SubscribeMulti k depth) :: cl2) ->
    never_lagged cl2 es2 id \/ ((forall d', ~ In (LSub (SubscribeMulti k d')) cl1) /\ keeps_up_multi cl2 es2 k id depth) ->
    found_empty_multi cl2 es2 id ->
    forall i p, nth_error (programs task bg (y_trace (a_sys a))) i = Some p ->
    exists before after, says kkind p (before ++ after) (HRet tt) /\
      subsequence before (y_trace (a_sys a1)) /\ subsequence (messages enc after k) (given_multi cl2 es2 id).
  Proof.
    intros Hs K O G Fe i p Hp.
    destruct (C75_multi_all_received std net can_spawn kkind spawn_ctxt d enc task bg cfg eps tin tout ea ta Hdisp Hdev Hkk Hhand ctx0 k depth id
      ls1 ls2 a1 a2 a cl1 cl2 es1 es2 Hrun1 Hrun2 Hlab1 Hlab2 Hrecv Hkeeps Hrest Hs K O G Fe) as (new & T & _ & Q).
    destruct (split_says _ _ _ Hs T i p Hp) as (before & after & S & B & A). exists before, after. split; [exact S|]. split; [exact B|].
    rewrite (Q Horder). apply subsequence_skip. unfold messages. apply subsequence_flat_map. exact A.
  Qed.
End T.
Print Assumptions C77_threads.
Print Assumptions C77_all_said.
Print Assumptions C77_tasks_are_heard.
Print Assumptions C77_tasks_are_heard_multi.
