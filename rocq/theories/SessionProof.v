(** Proofs about one client after another: what the server does does not depend on what it
    did before, except through its context, its tasks, and the network. *)
From Coq Require Import NArith List Bool Arith Lia.
From Verif Require Import KeyModel HeaderModel HeaderSpec MinKeyModel MinKeySpec SchemaModel MacroModel PostcardModel DispatchModel DispatchSpec
  SubModel ClientModel SystemModel SystemSpec SystemProof LiveSpec LiveProof AsyncModel AsyncSpec AsyncProof SessionModel SessionSpec.
Import ListNotations.

Section S.
  Context {Val Ctx SCtx : Type}.
  Variable std : StdKeys.
  Variable net : Trace Val SCtx -> VarHeader -> Payload Val -> TxRes.
  Variable can_spawn : Trace Val SCtx -> nat -> bool.
  Variable kkind : VarKeyKind.
  Variable spawn_ctxt : Ctx -> Ctx * SCtx.
  Variable d : Dispatcher Val Ctx.
  Variable enc : Payload Val -> list N.
  Variable task : nat -> SCtx -> VarHeader -> Val -> HProg Val unit.
  Variable cfg : Config.
  Notation Tr := (Trace Val SCtx).
  Notation ASys := (ASys Val Ctx SCtx).
  Notation Sys := (Sys Val Ctx SCtx).

  (** *** Shifting the history *)
  Variable tr0 : Tr.
  Definition later_net (t : Tr) := net (tr0 ++ t).
  Definition later_can (t : Tr) := can_spawn (tr0 ++ t).
  Definition sshift (s : Sys) : Sys :=
    MkSys _ _ _ (y_client _ _ _ s) (y_up _ _ _ s) (y_down _ _ _ s) (y_ctx _ _ _ s) (tr0 ++ y_trace _ _ _ s) (y_tasks _ _ _ s) (y_serving _ _ _ s).
  Definition shift (a : ASys) : ASys := MkASys _ _ _ (sshift (a_sys _ _ _ a)) (a_cur _ _ _ a).

  Notation a_step n c := (a_step Val Ctx SCtx std n c kkind spawn_ctxt d enc task cfg).
  Notation a_run n c := (a_run Val Ctx SCtx std n c kkind spawn_ctxt d enc task cfg).
  Notation sys_step n c := (sys_step Val Ctx SCtx std n c kkind spawn_ctxt d enc task cfg).

  Lemma settle_shift {R} (p : SProg Val SCtx R) : forall t,
    settle Val SCtx can_spawn p (tr0 ++ t) = (fst (settle Val SCtx later_can p t), tr0 ++ snd (settle Val SCtx later_can p t)).
  Proof.
    induction p as [r|n h v k IH|n sc h v k IH|w h pl k IH]; intros t; cbn [settle fst snd]; auto.
    - rewrite <- app_assoc, IH. reflexivity.
    - unfold later_can at 1 2. rewrite <- app_assoc, IH. reflexivity.
  Qed.

  Lemma settle_grows {R} (p : SProg Val SCtx R) c : forall t, exists new, snd (settle Val SCtx c p t) = t ++ new.
  Proof.
    induction p as [r|n h v k IH|n sc h v k IH|w h pl k IH]; intros t; cbn [settle fst snd].
    - exists []. now rewrite app_nil_r.
    - destruct (IH (t ++ [EvRun n h v])) as (new & ->). rewrite <- app_assoc. eauto.
    - destruct (IH (c t n) (t ++ [EvSpawn n sc h v (c t n)])) as (new & ->). rewrite <- app_assoc. eauto.
    - exists []. now rewrite app_nil_r.
  Qed.

  Lemma skip_shift {A} (t t' new : list A) : skipn (length (t' ++ t)) (t' ++ t ++ new) = skipn (length t) (t ++ new).
  Proof.
    rewrite app_assoc, (skipn_app (length (t' ++ t)) (t' ++ t) new), (skipn_app (length t) t new), !skipn_all, !Nat.sub_diag. reflexivity.
  Qed.

  Lemma carry_shift s p :
    carry_on Val Ctx SCtx can_spawn task (sshift s) p = shift (carry_on Val Ctx SCtx later_can task s p).
  Proof.
    unfold carry_on. cbn [sshift y_trace y_client y_up y_down y_ctx y_tasks y_serving]. rewrite settle_shift.
    destruct (settle_grows p later_can (y_trace _ _ _ s)) as (new & E).
    destruct (settle Val SCtx later_can p (y_trace _ _ _ s)) as [p' t'] eqn:Es. cbn [fst snd] in *. subst t'. rewrite skip_shift.
    destruct p' as [[ctx res]|n h v k|n sc h v k|w h pl k]; unfold shift, sshift; cbn [a_sys a_cur y_trace y_client y_up y_down y_ctx y_tasks y_serving]; reflexivity.
  Qed.

  Lemma sys_shift l s : (forall i, l <> SServe i) ->
    sys_step net can_spawn l (sshift s) = option_map sshift (sys_step later_net later_can l s).
  Proof.
    intros N. destruct l as [l|i|i|i|i|i|i n|i]; cbn [SystemModel.sys_step sshift y_trace y_client y_up y_down y_ctx y_tasks y_serving].
    - destruct l; try reflexivity; destruct (step cfg _ (y_client _ _ _ s)) as [[c e]|]; reflexivity.
    - destruct (nth_error _ i); [|reflexivity]. destruct (step cfg _ (y_client _ _ _ s)) as [[c e]|]; reflexivity.
    - destruct (N i eq_refl).
    - destruct (nth_error _ i) as [[|key seq p k]|]; try reflexivity. unfold send_keyed, tx_send. rewrite <- app_assoc, skip_shift.
      unfold later_net. cbn [option_map]. unfold sshift. cbn [y_trace y_client y_up y_down y_ctx y_tasks y_serving]. reflexivity.
    - destruct (nth_error _ i); reflexivity.
    - destruct (nth_error _ i); reflexivity.
    - destruct (nth_error _ i); reflexivity.
    - reflexivity.
  Qed.

  Lemma step_shift l a : a_step net can_spawn l (shift a) = option_map shift (a_step later_net later_can l a).
  Proof.
    destruct l as [l|].
    - destruct l as [l|i|i|i|i|i|i n|i];
        try (cbn [AsyncModel.a_step shift a_sys a_cur]; rewrite sys_shift by discriminate;
             match goal with |- context [SystemModel.sys_step ?a1 ?a2 ?a3 ?a4 ?a5 ?a6 ?a7 ?a8 ?a9 ?a10 ?a11 ?a12 ?x ?y] =>
               destruct (SystemModel.sys_step a1 a2 a3 a4 a5 a6 a7 a8 a9 a10 a11 a12 x y) as [s'|]; reflexivity end).
      cbn [AsyncModel.a_step shift a_sys a_cur]. destruct (a_cur _ _ _ a); [reflexivity|].
      cbn [sshift y_trace y_client y_up y_down y_ctx y_tasks y_serving]. destruct (y_serving _ _ _ (a_sys _ _ _ a)); [|reflexivity].
      destruct (nth_error _ i) as [b|]; [|reflexivity]. destruct (take_from_slice b) as [[[hdr body]|]|]; [|reflexivity|reflexivity].
      cbn [option_map]. rewrite <- carry_shift. reflexivity.
    - cbn [AsyncModel.a_step shift a_sys a_cur]. destruct (a_cur _ _ _ a) as [[r|n h v k|n sc h v k|w h p k]|]; try reflexivity.
      cbn [option_map]. rewrite <- carry_shift. unfold sshift. cbn [y_trace y_client y_up y_down y_ctx y_tasks y_serving].
      rewrite <- app_assoc. reflexivity.
  Qed.

  Lemma label_shift l a : a_client_label Val Ctx SCtx l (shift a) = a_client_label Val Ctx SCtx l a.
  Proof. destruct l as [[]|]; reflexivity. Qed.

  Lemma run_shift ls : forall a,
    a_run net can_spawn ls (shift a) =
    match a_run later_net later_can ls a with Some (a', cl, es) => Some (shift a', cl, es) | None => None end.
  Proof.
    induction ls as [|l ls IH]; intros a; cbn [AsyncModel.a_run]; [reflexivity|].
    rewrite step_shift, label_shift. destruct (a_step later_net later_can l a) as [a1|]; cbn [option_map]; [|reflexivity].
    rewrite IH. destruct (a_run later_net later_can ls a1) as [[[a2 cl] es]|]; [|reflexivity].
    change (y_client _ _ _ (a_sys _ _ _ (shift a))) with (y_client _ _ _ (a_sys _ _ _ a)).
    destruct (a_client_label Val Ctx SCtx l a); [|reflexivity]. destruct (step cfg _ _) as [[c e]|]; reflexivity.
  Qed.

  Lemma lost_shift (loses : SysLabel -> Sys -> list (list N)) : (forall l s, loses l (sshift s) = loses l s) -> forall ls a,
    a_lost (a_step net can_spawn) loses ls (shift a) = a_lost (a_step later_net later_can) loses ls a.
  Proof.
    intros H. induction ls as [|l ls IH]; intros a; cbn [a_lost]; [reflexivity|]. rewrite step_shift. f_equal.
    - destruct l; [|reflexivity]. apply H.
    - destruct (a_step later_net later_can l a) as [a'|]; [apply IH|reflexivity].
  Qed.
End S.

Section Start.
  Context {Val Ctx SCtx : Type}.
  (** A new client meets a device at rest like a new one, with the tasks that are left as
      background tasks. *)
  Lemma reconnect_shift (a : ASys Val Ctx SCtx) : a_cur _ _ _ a = None -> y_up _ _ _ (a_sys _ _ _ a) = [] -> y_down _ _ _ (a_sys _ _ _ a) = [] ->
    reconnect Val Ctx SCtx a = shift (y_trace _ _ _ (a_sys _ _ _ a)) (asys_new Val Ctx SCtx (y_tasks _ _ _ (a_sys _ _ _ a)) (y_ctx _ _ _ (a_sys _ _ _ a))).
  Proof. intros C U D. unfold reconnect, shift, sshift, asys_new, sys_new. cbn. rewrite C, U, D, app_nil_r. reflexivity. Qed.
End Start.

(** *** What spawned tasks do *)
Section Tasks.
  Context {Val Ctx SCtx : Type}.
  Variable std : StdKeys.
  Variable net : Trace Val SCtx -> VarHeader -> Payload Val -> TxRes.
  Variable can_spawn : Trace Val SCtx -> nat -> bool.
  Variable kkind : VarKeyKind.
  Variable spawn_ctxt : Ctx -> Ctx * SCtx.
  Variable d : Dispatcher Val Ctx.
  Variable enc : Payload Val -> list N.
  Variable task : nat -> SCtx -> VarHeader -> Val -> HProg Val unit.
  Variable cfg : Config.
  Variable tout : TopicMap.
  Notation Tr := (Trace Val SCtx).
  Notation ASys := (ASys Val Ctx SCtx).
  Notation only := (only_publishes tout).

  Inductive harmless {R} : SProg Val SCtx R -> Prop :=
  | hl_ret r : harmless (SpRet r)
  | hl_run n h v k : harmless k -> harmless (SpRun n h v k)
  | hl_spawn n sc h v k : only (task n sc h v) -> (forall b, harmless (k b)) -> harmless (SpSpawn n sc h v k)
  | hl_send w h p k : (forall r, harmless (k r)) -> harmless (SpSend w h p k).

  Definition no_endpoint_tasks : Prop := forall a, In a (d_eps _ _ d) -> ea_flavor _ _ a <> Spawn.
  Definition topic_tasks_publish : Prop :=
    forall a sc h v, In a (d_tps _ _ d) -> ta_flavor _ _ a = Spawn -> only (task (ta_name _ _ a) sc h v).
  Hypothesis Hep : no_endpoint_tasks.
  Hypothesis Htp : topic_tasks_publish.

  Lemma harmless_user {A R} (p : HProg Val A) (k : A -> SProg Val SCtx R) : (forall x, harmless (k x)) -> harmless (sp_user Val SCtx kkind p k).
  Proof. intros H. induction p as [x|key seq pl k' IH]; cbn [sp_user]; auto. apply hl_send. auto. Qed.
  Lemma harmless_loop {R} items : forall m e (k : N -> N -> SProg Val SCtx R), (forall m e, harmless (k m e)) -> harmless (sp_schema_loop Val SCtx std kkind items m e k).
  Proof. induction items as [|x tl IH]; intros m e k H; cbn [sp_schema_loop]; auto. apply hl_send. auto. Qed.

  Lemma harmless_handle ctx hdr body : harmless (sp_handle Val Ctx SCtx std kkind spawn_ctxt d ctx hdr body).
  Proof.
    unfold sp_handle. unfold sp_error, sp_keyed.
    destruct (keyb_of _ _) as [keyb|]; [|apply hl_send; intros; constructor].
    destruct (pat_eqb _ _). { destruct (from_bytes_u32 body); apply hl_send; intros; constructor. }
    destruct (pat_eqb _ _). { unfold sp_schemas. repeat (apply harmless_loop; intros). apply hl_send. intros. constructor. }
    assert (T : forall tps, incl tps (d_tps _ _ d) -> harmless (sp_match_tps Val Ctx SCtx std kkind spawn_ctxt (d_kind _ _ d) keyb tps ctx hdr body)).
    { induction tps as [|a tl IH]; intros I; cbn [sp_match_tps]. { apply hl_send. intros. constructor. }
      destruct (pat_eqb _ _); [|apply IH; intros x Hx; apply I; right; auto].
      destruct (ta_deser _ _ a body); [|constructor]. unfold sp_tp_arm. destruct (ta_flavor _ _ a) eqn:F.
      1,2: (apply hl_run, harmless_user; intros; constructor).
      apply hl_spawn; [|intros; constructor]. apply Htp; auto. apply I. left. auto. }
    assert (E : forall eps, incl eps (d_eps _ _ d) -> harmless (sp_match_eps Val Ctx SCtx std kkind spawn_ctxt (d_kind _ _ d) keyb eps (d_tps _ _ d) ctx hdr body)).
    { induction eps as [|a tl IH]; intros I; cbn [sp_match_eps]. { apply T. intros x; auto. }
      destruct (pat_eqb _ _); [|apply IH; intros x Hx; apply I; right; auto].
      destruct (ea_deser _ _ a body); [|apply hl_send; intros; constructor]. unfold sp_ep_arm. pose proof (Hep a (I a (or_introl eq_refl))) as F.
      destruct (ea_flavor _ _ a) eqn:Fa.
      1,2: (apply hl_run, harmless_user; intros; apply hl_send; intros r; destruct (is_err r); [apply hl_send; intros|]; constructor).
      destruct (F eq_refl). }
    apply E. intros x; auto.
  Qed.

  Lemma settle_harmless {R} (p : SProg Val SCtx R) : harmless p -> forall t,
    harmless (fst (settle Val SCtx can_spawn p t)) /\
    exists new, snd (settle Val SCtx can_spawn p t) = t ++ new /\ Forall only (tasks_of Val SCtx task new).
  Proof.
    induction 1 as [r|n h v k _ IH|n sc h v k Ho _ IH|w h p k Hk _]; intros t; cbn [settle fst snd].
    - split; [constructor|]. exists []. rewrite app_nil_r. split; [auto|constructor].
    - destruct (IH (t ++ [EvRun n h v])) as [H (new & E & F)]. split; auto. exists (EvRun n h v :: new). rewrite E, <- app_assoc. auto.
    - set (b := can_spawn t n). destruct (IH b (t ++ [EvSpawn n sc h v b])) as [H (new & E & F)]. split; auto. exists (EvSpawn n sc h v b :: new).
      rewrite E, <- app_assoc. split; auto. unfold tasks_of. cbn [flat_map]. destruct b; [constructor; auto|auto].
    - split; [constructor; auto|]. exists []. rewrite app_nil_r. split; [auto|constructor].
  Qed.

  Definition quiet (a : ASys) : Prop :=
    Forall only (y_tasks _ _ _ (a_sys _ _ _ a)) /\ match a_cur _ _ _ a with Some p => harmless p | None => True end.

  Lemma carry_quiet s p : Forall only (y_tasks _ _ _ s) -> harmless p -> quiet (carry_on Val Ctx SCtx can_spawn task s p).
  Proof.
    intros Ht Hp. unfold carry_on. destruct (settle_harmless p Hp (y_trace _ _ _ s)) as [H (new & E & F)].
    destruct (settle Val SCtx can_spawn p (y_trace _ _ _ s)) as [p' t']. cbn [fst snd] in *. subst t'.
    rewrite skipn_app, skipn_all, Nat.sub_diag. cbn [app skipn].
    assert (G : Forall only (y_tasks _ _ _ s ++ tasks_of Val SCtx task new)) by (apply Forall_app; auto).
    destruct p' as [[ctx res]| | |]; split; cbn; auto.
  Qed.

  Notation a_step := (a_step Val Ctx SCtx std net can_spawn kkind spawn_ctxt d enc task cfg).
  Notation a_run := (a_run Val Ctx SCtx std net can_spawn kkind spawn_ctxt d enc task cfg).

  Lemma step_quiet l a a' : quiet a -> a_step l a = Some a' -> quiet a'.
  Proof.
    intros [Ht Hc] H. destruct l as [l|].
    - destruct l as [l|i|i|i|i|i|i n|i]; cbn [AsyncModel.a_step] in H.
      + destruct (sys_step _ _ _ _ _ _ _ _ _ _ _ _ _ _) as [s'|] eqn:E; [|discriminate]. injection H as <-. cbn [SystemModel.sys_step] in E.
        destruct l; try discriminate; destruct (step cfg _ _) as [[c e]|]; try discriminate; injection E as <-; split; auto.
      + destruct (sys_step _ _ _ _ _ _ _ _ _ _ _ _ _ _) as [s'|] eqn:E; [|discriminate]. injection H as <-. cbn [SystemModel.sys_step] in E.
        destruct (nth_error _ i); [|discriminate]. destruct (step cfg _ _) as [[c e]|]; [|discriminate]. injection E as <-. split; auto.
      + destruct (a_cur _ _ _ a); [discriminate|]. destruct (y_serving _ _ _ (a_sys _ _ _ a)); [|discriminate].
        destruct (nth_error _ i) as [b|]; [|discriminate]. destruct (take_from_slice b) as [[[hdr body]|]|]; [| |discriminate]; injection H as <-.
        * apply carry_quiet; auto. apply harmless_handle.
        * split; cbn; auto.
      + destruct (sys_step _ _ _ _ _ _ _ _ _ _ _ _ _ _) as [s'|] eqn:E; [|discriminate]. injection H as <-. cbn [SystemModel.sys_step] in E.
        destruct (nth_error (y_tasks _ _ _ (a_sys _ _ _ a)) i) as [[|key seq p k]|] eqn:En; try discriminate.
        unfold send_keyed, tx_send in E. injection E as <-. split; cbn [a_sys a_cur y_tasks]; auto. apply set_nth_forall; auto.
        rewrite Forall_forall in Ht. pose proof (Ht _ (nth_error_In _ _ En)) as Ho.
        intros key' seq' p' M. apply (Ho key' seq' p'). econstructor. exact M.
      + destruct (sys_step _ _ _ _ _ _ _ _ _ _ _ _ _ _) as [s'|] eqn:E; [|discriminate]. injection H as <-. cbn [SystemModel.sys_step] in E.
        destruct (nth_error _ i); [|discriminate]. injection E as <-. split; auto.
      + destruct (sys_step _ _ _ _ _ _ _ _ _ _ _ _ _ _) as [s'|] eqn:E; [|discriminate]. injection H as <-. cbn [SystemModel.sys_step] in E.
        destruct (nth_error _ i); [|discriminate]. injection E as <-. split; auto.
      + destruct (sys_step _ _ _ _ _ _ _ _ _ _ _ _ _ _) as [s'|] eqn:E; [|discriminate]. injection H as <-. cbn [SystemModel.sys_step] in E.
        destruct (nth_error _ i); [|discriminate]. injection E as <-. split; auto.
      + destruct (sys_step _ _ _ _ _ _ _ _ _ _ _ _ _ _) as [s'|] eqn:E; [|discriminate]. injection H as <-. cbn [SystemModel.sys_step] in E.
        injection E as <-. split; auto.
    - cbn [AsyncModel.a_step] in H. destruct (a_cur _ _ _ a) as [[r|n h v k|n sc h v k|w h p k]|] eqn:C; try discriminate. injection H as <-.
      apply carry_quiet; auto. inversion Hc; subst. auto.
  Qed.
  Lemma run_quiet ls : forall a a' cl es, quiet a -> a_run ls a = Some (a', cl, es) -> quiet a'.
  Proof.
    induction ls as [|l ls IH]; intros a a' cl es Q H; cbn [AsyncModel.a_run] in H. { injection H as <- <- <-. auto. }
    destruct (a_step l a) as [a1|] eqn:E; [|discriminate]. destruct (a_run ls a1) as [[[a2 cl2] es2]|] eqn:R; [|discriminate].
    assert (a' = a2) as ->. { destruct (a_client_label _ _ _ l a); [destruct (step cfg _ _) as [[c e]|]; [|discriminate]|]; injection H as <- _ _; reflexivity. }
    eapply IH; [eapply step_quiet; eauto|exact R].
  Qed.
End Tasks.
