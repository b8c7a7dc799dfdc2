(** C95 in the whole system: a host program that is started when nothing is under way begins
    as if the device were new. *)
From Coq Require Import NArith List Bool Arith Lia.
From Verif Require Import KeyModel HeaderModel KeySpec HeaderSpec MinKeyModel MinKeySpec
  SchemaModel MacroModel PostcardModel DispatchModel DispatchSpec SubModel SubSpec ClientModel ClientSpec
  UsbModel UsbSpec NusbRxModel LogModel.
From Verif Require Import DispatchModel DispatchSpec SystemModel SystemSpec AsyncModel AsyncSpec UsbSysModel UsbSysSpec RestartThm2.
Import ListNotations.

Lemma send_seq_app l1 : forall b l2, send_seq b (l1 ++ l2) =
  (fst (fst (send_seq b l1)) ++ fst (fst (send_seq (snd (fst (send_seq b l1))) l2)),
   snd (fst (send_seq (snd (fst (send_seq b l1))) l2)), snd (send_seq b l1) ++ snd (send_seq (snd (fst (send_seq b l1))) l2)).
Proof.
  induction l1 as [|[o os] l1 IH]; intros b l2.
  - cbn. destruct (send_seq b l2) as [[w p] r]. reflexivity.
  - cbn [app send_seq]. destruct (send_all o b os) as [[w p'] r]. rewrite IH.
    destruct (send_seq p' l1) as [[w1 p1] r1]. cbn [fst snd]. rewrite <- app_assoc. reflexivity.
Qed.

Section R.
  Context {Val Ctx SCtx : Type}.
  Variable std : StdKeys.
  Variable can_spawn : Trace Val SCtx -> nat -> bool.
  Variable kkind : VarKeyKind.
  Variable spawn_ctxt : Ctx -> Ctx * SCtx.
  Variable d : Dispatcher Val Ctx.
  Variable enc : Payload Val -> list N.
  Variable task : nat -> SCtx -> VarHeader -> Val -> HProg Val unit.
  Variable cfg : Config.
  Variable txlen rxlen : nat.
  Variable consumes : bool.
  Variable mps : option nat.
  Variable outcome : nat -> list WRes.
  (** What the device did before. *)
  Variable before : Trace Val SCtx.
  Notation n_before := (n_sent Val SCtx enc txlen outcome before).
  Hypothesis Hnot_pending : tx_pending Val SCtx enc txlen outcome before = false.
  (** What becomes of the messages sent from now on, and whether tasks can be spawned. *)
  Definition outcome' (n : nat) : list WRes := outcome (n_before + n).
  Definition can_spawn' (tr : Trace Val SCtx) (n : nat) : bool := can_spawn (before ++ tr) n.

  Notation sends_ := (sends Val SCtx enc txlen).
  Lemma sends_app o tr : forall n tr', sends_ o n (tr ++ tr') = sends_ o n tr ++ sends_ o (n + length (sends_ o n tr)) tr'.
  Proof.
    induction tr as [|e tr IH]; intros n tr'; [cbn; f_equal; lia|]. destruct e; cbn [app sends]; rewrite ?IH; auto.
    cbn [length app]. f_equal. f_equal. f_equal. lia.
  Qed.
  Lemma sends_shift tr : forall n, sends_ outcome (n_before + n) tr = sends_ outcome' n tr.
  Proof.
    induction tr as [|e tr IH]; intros n; [reflexivity|]. destruct e; cbn [sends]; auto.
    rewrite <- (IH (S n)). rewrite Nat.add_succ_r. reflexivity.
  Qed.
  Lemma sends_length o o' tr : forall n n', length (sends_ o n tr) = length (sends_ o' n' tr).
  Proof. induction tr as [|e tr IH]; intros; [reflexivity|]. destruct e; cbn [sends length]; auto. Qed.
  Lemma n_sent_app tr : n_sent Val SCtx enc txlen outcome (before ++ tr) = n_before + n_sent Val SCtx enc txlen outcome' tr.
  Proof. unfold n_sent. rewrite sends_app, app_length. f_equal. apply sends_length. Qed.
  Lemma pending_app tr : tx_pending Val SCtx enc txlen outcome (before ++ tr) = tx_pending Val SCtx enc txlen outcome' tr.
  Proof.
    unfold tx_pending. rewrite sends_app, send_seq_app. cbn [fst snd]. unfold tx_pending in Hnot_pending. rewrite Hnot_pending.
    rewrite <- sends_shift. f_equal. f_equal. f_equal. f_equal. unfold n_sent. lia.
  Qed.
  Lemma net_app tr h p : usb_net Val SCtx enc txlen outcome (before ++ tr) h p = usb_net Val SCtx enc txlen outcome' tr h p.
  Proof. unfold usb_net. rewrite pending_app, n_sent_app. reflexivity. Qed.
  Lemma new_app tr new : new_packets Val SCtx enc txlen outcome (before ++ tr) new = new_packets Val SCtx enc txlen outcome' tr new.
  Proof. unfold new_packets. rewrite pending_app, n_sent_app, sends_shift. reflexivity. Qed.
  Lemma settle_app {R} (p : SProg Val SCtx R) : forall tr,
    settle Val SCtx can_spawn p (before ++ tr) = (fst (settle Val SCtx can_spawn' p tr), before ++ snd (settle Val SCtx can_spawn' p tr)).
  Proof.
    induction p; intros tr; cbn [settle]; try reflexivity.
    - rewrite <- app_assoc. auto.
    - rewrite <- app_assoc. apply H.
  Qed.
  Lemma skipn_before {A} (a b c : list A) : skipn (length (a ++ b)) (a ++ c) = skipn (length b) c.
  Proof. rewrite app_length, skipn_app. rewrite skipn_all2 by lia. cbn [app]. f_equal. lia. Qed.

  Notation u_step := (u_step Val Ctx SCtx std can_spawn kkind spawn_ctxt d enc task cfg txlen rxlen consumes mps outcome).
  Notation u_run := (u_run Val Ctx SCtx std can_spawn kkind spawn_ctxt d enc task cfg txlen rxlen consumes mps outcome).
  Notation u_step' := (UsbSysModel.u_step Val Ctx SCtx std can_spawn' kkind spawn_ctxt d enc task cfg txlen rxlen consumes mps outcome').
  Notation u_run' := (UsbSysModel.u_run Val Ctx SCtx std can_spawn' kkind spawn_ctxt d enc task cfg txlen rxlen consumes mps outcome').

  (** The same state with the longer history. *)
  Definition later (u : USys Val Ctx SCtx) : USys Val Ctx SCtx :=
    MkUSys _ _ _ (u_client _ _ _ u) (u_out _ _ _ u) (u_in _ _ _ u) (u_acc _ _ _ u) (u_comps _ _ _ u) (u_reqs _ _ _ u) (u_errs _ _ _ u) (u_ctx _ _ _ u)
      (before ++ u_trace _ _ _ u) (u_tasks _ _ _ u) (u_serving _ _ _ u) (u_cur _ _ _ u).
  Lemma carry_on_later u p : u_carry_on Val Ctx SCtx can_spawn task (later u) p = later (u_carry_on Val Ctx SCtx can_spawn' task u p).
  Proof.
    unfold u_carry_on. cbn [later u_trace u_tasks]. rewrite settle_app. destruct (settle Val SCtx can_spawn' p (u_trace _ _ _ u)) as [p' tr']. cbn [fst snd].
    rewrite skipn_before. destruct p' as [[ctx res]| | |]; reflexivity.
  Qed.
  Lemma step_later l u : u_step l (later u) = option_map (fun x => (later (fst x), snd x)) (u_step' l u).
  Proof.
    destruct l as [l|fails k| | |i| |e|e|halts]; cbn [UsbSysModel.u_step later u_client u_out u_in u_acc u_comps u_reqs u_errs u_ctx u_tasks u_serving u_cur u_trace].
    - destruct l; try reflexivity; match goal with |- context [step cfg ?l ?c] => destruct (step cfg l c) as [[c' ev]|]; reflexivity end.
    - destruct (step cfg _ _) as [[c' ev]|]; reflexivity.
    - destruct (u_cur _ _ _ u); [reflexivity|]. destruct (u_serving _ _ _ u) eqn:Sv; [|reflexivity].
      destruct (receive consumes rxlen (map Pkt (u_out _ _ _ u))) as [[f| | |] rest]; try reflexivity.
      destruct (take_from_slice f) as [[[hdr body]|]|]; try reflexivity. cbn [option_map fst snd]. rewrite <- carry_on_later. reflexivity.
    - destruct (u_cur _ _ _ u) as [[|w h p k| |]|]; try reflexivity. cbn [option_map fst snd]. rewrite net_app, new_app, <- carry_on_later.
      unfold later. cbn [u_client u_out u_in u_acc u_comps u_reqs u_errs u_ctx u_tasks u_serving u_cur u_trace]. rewrite <- app_assoc. reflexivity.
    - destruct (nth_error (u_tasks _ _ _ u) i) as [[|key seq p k]|]; try reflexivity.
      unfold send_keyed, tx_send. rewrite net_app. cbn [option_map fst snd]. rewrite <- app_assoc, !skipn_before, new_app. reflexivity.
    - destruct (u_in _ _ _ u) as [|p tl]; [reflexivity|]. destruct (_ || _); reflexivity.
    - destruct (u_acc _ _ _ u); reflexivity.
    - destruct (u_acc _ _ _ u); reflexivity.
    - destruct (recv _ _ _ halts) as [[[[[res reqs] errs] comps] h'] aw]. destruct res; try reflexivity; destruct (step cfg _ _) as [[c' ev]|]; reflexivity.
  Qed.
  Lemma run_later ls : forall u, u_run ls (later u) = option_map (fun x => (later (fst (fst x)), snd (fst x), snd x)) (u_run' ls u).
  Proof.
    induction ls as [|l ls IH]; intros u; [reflexivity|]. cbn [UsbSysModel.u_run]. rewrite step_later.
    destruct (u_step' l u) as [[u1 ce]|]; [|reflexivity]. cbn [option_map fst snd]. rewrite IH.
    destruct (u_run' ls u1) as [[[u2 cl] es]|]; [|reflexivity]. destruct ce as [[x e]|]; reflexivity.
  Qed.
End R.
