(** Lemmas about a topic on which a single task publishes. *)
From Coq Require Import NArith List Bool Arith Lia Permutation.
From Verif Require Import KeyModel HeaderModel KeySpec HeaderSpec MinKeyModel MinKeySpec SchemaModel MacroModel PostcardModel DispatchModel DispatchSpec DispatchProof SubModel SubProof
  ClientModel ClientSpec ClientHist UsbSpec FlowBase.
From Verif Require Import DispatchModel DispatchSpec SystemModel SystemSpec SystemProof LiveSpec LiveProof AsyncModel AsyncSpec AsyncProof MissSpec ThreadsSpec.
Import ListNotations.

Section P.
  Context {Val Ctx SCtx : Type}.
  Variable std : StdKeys.
  Variable kkind : VarKeyKind.
  Variable spawn_ctxt : Ctx -> Ctx * SCtx.
  Variable d : Dispatcher Val Ctx.
  Variable enc : Payload Val -> list N.
  Variable task : nat -> SCtx -> VarHeader -> Val -> HProg Val unit.
  Variable bg : list (HProg Val unit).
  Variable cfg : Config.
  Variable net : Trace Val SCtx -> VarHeader -> Payload Val -> TxRes.
  Variable can_spawn : Trace Val SCtx -> nat -> bool.

  Notation Tr := (Trace Val SCtx).
  Notation SProg := (SProg Val SCtx).
  Notation ASys := (ASys Val Ctx SCtx).
  Notation sp_handle := (sp_handle Val Ctx SCtx std kkind spawn_ctxt d).
  Notation sp_user := (sp_user Val SCtx kkind).
  Notation a_step := (a_step Val Ctx SCtx std net can_spawn kkind spawn_ctxt d enc task cfg).
  Notation a_run := (a_run Val Ctx SCtx std net can_spawn kkind spawn_ctxt d enc task cfg).
  Notation a_sys := (a_sys Val Ctx SCtx).
  Notation a_cur := (a_cur Val Ctx SCtx).
  Notation y_tasks := (y_tasks Val Ctx SCtx).
  Notation y_trace := (y_trace Val Ctx SCtx).
  Notation settle := (settle Val SCtx can_spawn).
  Notation carry_on := (carry_on Val Ctx SCtx can_spawn task).

  (** The topic, the task and its program. *)
  Variable k : Key8.
  Variable i : nat.
  Variable p0 : HProg Val unit.
  Definition onk (h : VarHeader) : bool := varkey_eqb (VKey8 k) (hdr_key h).
  Definition onkey (key : Key8) : bool := onk (out_header kkind key (Seq1 0)).
  Notation msgs tr := (messages enc tr k).
  Lemma msgs_app (a b : Tr) : msgs (a ++ b) = msgs a ++ msgs b. Proof. apply flat_map_app. Qed.
  Definition quiet {A} (p : HProg Val A) : Prop := forall key seq pl, may_send p key seq pl -> onkey key = false.

  Hypothesis Hbgi : nth_error bg i = Some p0.
  Hypothesis Hbg : forall j p, j <> i -> nth_error bg j = Some p -> quiet p.
  Hypothesis Herr : onkey (error_key std) = false.
  Hypothesis Hping : onkey (ping_resp std) = false.
  Hypothesis Htop : onkey (schema_topic std) = false.
  Hypothesis Hres : onkey (schemas_resp std) = false.
  Hypothesis Hea : forall a, In a (d_eps _ _ d) -> onkey (ea_resp _ _ a) = false /\ (forall ctx h v, quiet (ea_run _ _ a ctx h v)) /\
    (ea_flavor _ _ a = Spawn -> forall sc h v, quiet (task (ea_name _ _ a) sc h v)).
  Hypothesis Hta : forall a, In a (d_tps _ _ d) -> (forall ctx h v, quiet (ta_run _ _ a ctx h v)) /\
    (ta_flavor _ _ a = Spawn -> forall sc h v, quiet (task (ta_name _ _ a) sc h v)).

  Lemma quiet_next {A} key seq p (f : TxRes -> HProg Val A) r : quiet (HSend key seq p f) -> quiet (f r).
  Proof. intros H key' seq' p' M. eapply H. econstructor. exact M. Qed.

  (** Code of the server that does not publish on the topic, nor do the tasks it spawns. *)
  Fixpoint squiet {R} (p : SProg R) : Prop :=
    match p with
    | SpRet _ => True
    | SpRun _ _ _ f => squiet f
    | SpSpawn n sc h v f => quiet (task n sc h v) /\ forall b, squiet (f b)
    | SpSend _ h _ f => onk h = false /\ forall r, squiet (f r)
    end.
  Lemma settle_quiet {R} (p : SProg R) : forall tr p' tr', settle p tr = (p', tr') -> squiet p ->
    squiet p' /\ exists evs, tr' = tr ++ evs /\ msgs evs = [] /\ Forall quiet (tasks_of Val SCtx task evs).
  Proof.
    induction p as [r|n h v f IH|n sc h v f IH|w h pl f IH]; intros tr p' tr'; cbn [AsyncModel.settle squiet]; intros H O.
    - injection H as <- <-. split; auto. exists []. rewrite app_nil_r. repeat split; auto. constructor.
    - destruct (IH _ _ _ H O) as (O' & evs & -> & M & F). split; auto. exists (EvRun n h v :: evs). rewrite <- app_assoc. auto.
    - destruct O as [O1 O2]. destruct (IH _ _ _ _ H (O2 _)) as (O' & evs & -> & M & F). split; auto. eexists (_ :: evs). rewrite <- app_assoc. split; [reflexivity|].
      split; [exact M|]. cbn. destruct (can_spawn tr n); cbn; auto.
    - injection H as <- <-. split; auto. exists []. rewrite app_nil_r. repeat split; auto. constructor.
  Qed.
  Lemma keyed_quiet {R} w seq key p (f : TxRes -> SProg R) : onkey key = false -> (forall r, squiet (f r)) -> squiet (sp_keyed Val SCtx kkind w seq key p f).
  Proof. intros H F. split; auto. Qed.
  Lemma error_quiet {R} seq e (f : TxRes -> SProg R) : (forall r, squiet (f r)) -> squiet (sp_error Val SCtx std kkind seq e f).
  Proof. intros F. apply keyed_quiet; auto. Qed.
  Lemma user_quiet {A R} (p : HProg Val A) (f : A -> SProg R) : quiet p -> (forall a, squiet (f a)) -> squiet (sp_user p f).
  Proof.
    intros Q H. revert Q. induction p as [a|key seq pl k' IH]; intros Q; cbn [AsyncModel.sp_user]; auto.
    apply keyed_quiet; [apply (Q key seq pl); constructor|]. intros r. apply IH. eapply quiet_next; eauto.
  Qed.
  Lemma loop_quiet {R} items : forall c e (f : N -> N -> SProg R), (forall c e, squiet (f c e)) -> squiet (sp_schema_loop Val SCtx std kkind items c e f).
  Proof. induction items as [|x tl IH]; intros c e f H; cbn [sp_schema_loop]; auto. apply keyed_quiet; auto. Qed.
  Lemma handle_quiet ctx hdr body : squiet (sp_handle ctx hdr body).
  Proof.
    unfold AsyncModel.sp_handle. destruct (keyb_of _ _) as [keyb|]; [|apply error_quiet; intros; exact Logic.I].
    destruct (pat_eqb keyb _). { destruct (from_bytes_u32 body); [apply keyed_quiet; auto|apply error_quiet]; intros; exact Logic.I. }
    destruct (pat_eqb keyb _). { unfold sp_schemas. do 4 (apply loop_quiet; intros). apply keyed_quiet; auto. intros; exact Logic.I. }
    revert Hea. generalize (d_eps _ _ d). intros eps. induction eps as [|a tl IH]; intros Ha; cbn [sp_match_eps].
    - clear Ha. revert Hta. generalize (d_tps _ _ d). intros tps. induction tps as [|a tl IH]; intros Ht; cbn [sp_match_tps]; [apply error_quiet; intros; exact Logic.I|].
      destruct (pat_eqb _ _); [|apply IH; intros; apply Ht; right; auto]. destruct (ta_deser _ _ a body) as [msg|]; [|exact Logic.I]. unfold sp_tp_arm.
      destruct (Ht a (or_introl eq_refl)) as [T1 T]. destruct (ta_flavor _ _ a); cbn [squiet]; try (apply user_quiet; [apply T1|intros; exact Logic.I]).
      split; [apply T; auto|intros; exact Logic.I].
    - destruct (pat_eqb _ _); [|apply IH; intros; apply Ha; right; auto]. destruct (ea_deser _ _ a body) as [req|]; [|apply error_quiet; intros; exact Logic.I]. unfold sp_ep_arm.
      destruct (Ha a (or_introl eq_refl)) as (R & T1 & T). destruct (ea_flavor _ _ a); cbn [squiet].
      1,2: apply user_quiet; [apply T1|]; intros x; apply keyed_quiet; auto; intros r; destruct (is_err r); [apply error_quiet; intros|]; exact Logic.I.
      split; [apply T; auto|]. intros []; [exact Logic.I|apply error_quiet; intros; exact Logic.I].
  Qed.

  (** *** The invariant *)
  Record SInv (a : ASys) : Prop := {
    sv_cur : match a_cur a with Some p => squiet p | None => True end;
    sv_others : forall j p, j <> i -> nth_error (y_tasks (a_sys a)) j = Some p -> quiet p;
    sv_said : exists said rest, nth_error (y_tasks (a_sys a)) i = Some rest /\ says (SCtx := SCtx) kkind p0 said rest /\
      msgs (y_trace (a_sys a)) = msgs said }.

  Lemma says_snoc p (es : Tr) key seq pl f r : says kkind p es (HSend key seq pl f) ->
    says kkind p (es ++ [EvSend ByHandler (MkHeader (shrink_to (VKey8 key) kkind) seq) pl r]) (f r).
  Proof.
    intros H. remember (HSend key seq pl f) as q eqn:Eq. revert Eq. induction H as [p|key' seq' p' f' r' es q H IH]; intros Eq.
    - subst p. cbn. constructor. constructor.
    - cbn. constructor. auto.
  Qed.

  Lemma carry_inv s p : squiet p -> (forall j q, j <> i -> nth_error (y_tasks s) j = Some q -> quiet q) ->
    (exists said rest, nth_error (y_tasks s) i = Some rest /\ says (SCtx := SCtx) kkind p0 said rest /\ msgs (y_trace s) = msgs said) ->
    SInv (carry_on s p).
  Proof.
    intros Q O (said & rest & Ht & Hs & Hm). unfold AsyncModel.carry_on. destruct (settle p (y_trace s)) as [p' tr'] eqn:E.
    destruct (settle_quiet _ _ _ _ E Q) as (Q' & evs & -> & M & F). rewrite skipn_exact.
    assert (O' : forall j q, j <> i -> nth_error (y_tasks s ++ tasks_of Val SCtx task evs) j = Some q -> quiet q).
    { intros j q Nj Hj. destruct (Nat.lt_ge_cases j (length (y_tasks s))) as [L|L].
      - rewrite nth_error_app1 in Hj by auto. eauto.
      - rewrite nth_error_app2 in Hj by auto. rewrite Forall_forall in F. apply F. eapply nth_error_In; eauto. }
    assert (S' : exists said rest, nth_error (y_tasks s ++ tasks_of Val SCtx task evs) i = Some rest /\ says (SCtx := SCtx) kkind p0 said rest /\
      msgs (y_trace s ++ evs) = msgs said).
    { exists said, rest. rewrite nth_error_app1 by (apply nth_error_Some; congruence). repeat split; auto. rewrite msgs_app, M, app_nil_r. exact Hm. }
    destruct p' as [[ctx res]| | |]; split; cbn [AsyncModel.a_sys AsyncModel.a_cur SystemModel.y_tasks SystemModel.y_trace]; auto.
  Qed.

  Lemma reach_sinv ctx0 ls a cl es : a_run ls (asys_new _ _ _ bg ctx0) = Some (a, cl, es) -> SInv a.
  Proof.
    revert ls a cl es. apply (a_ind std kkind spawn_ctxt d enc task cfg net can_spawn (fun ls a cl es => SInv a)).
    { split; cbn; auto. exists [], p0. repeat split; auto. constructor. }
    intros ls a cl es l a' _ [Fc Fo Fs] St. assert (G : SInv a'); [|destruct (a_client_label _ _ _ l a); auto].
    destruct l as [l|].
    2:{ cbn [AsyncModel.a_step] in St. destruct (a_cur a) as [[| | |w h p f]|] eqn:Ec; try discriminate St. injection St as <-.
        destruct Fc as [Fh Fc]. apply carry_inv; cbn [SystemModel.y_tasks SystemModel.y_trace]; auto.
        destruct Fs as (said & rest & A & B & C). exists said, rest. repeat split; auto. rewrite msgs_app, C. cbn [messages flat_map]. change (varkey_eqb (VKey8 k) (hdr_key h)) with (onk h). rewrite Fh. apply app_nil_r. }
    assert (Same : forall s', y_tasks s' = y_tasks (a_sys a) -> y_trace s' = y_trace (a_sys a) -> SInv (MkASys _ _ _ s' (a_cur a))).
    { intros s' E1 E2. split; cbn [AsyncModel.a_sys AsyncModel.a_cur]; rewrite ?E1, ?E2; auto. }
    destruct l as [l|j|j|j|j|j|j n|j]; cbn [AsyncModel.a_step] in St.
    - destruct (SystemModel.sys_step _ _ _ _ _ _ _ _ _ _ _ _ _ _) as [s'|] eqn:Hs; [|discriminate]. injection St as <-.
      destruct (step_client std net can_spawn kkind spawn_ctxt enc task cfg d _ _ _ Hs) as (e & _ & _ & ->). apply Same; reflexivity.
    - destruct (SystemModel.sys_step _ _ _ _ _ _ _ _ _ _ _ _ _ _) as [s'|] eqn:Hs; [|discriminate]. injection St as <-.
      cbn [SystemModel.sys_step] in Hs. destruct (nth_error _ j) as [b|]; [|discriminate].
      destruct (step cfg (LRecv b) _) as [[c e]|]; [|discriminate]. injection Hs as <-. apply Same; reflexivity.
    - destruct (a_cur a) eqn:Ec; [discriminate|]. destruct (y_serving _ _ _ _); [|discriminate]. destruct (nth_error (y_up _ _ _ _) j) as [b|]; [|discriminate].
      destruct (take_from_slice b) as [[[hdr body]|]|]; [| |discriminate]; injection St as <-.
      + apply carry_inv; cbn [SystemModel.y_tasks SystemModel.y_trace]; auto. apply handle_quiet.
      + apply Same; reflexivity.
    - destruct (SystemModel.sys_step _ _ _ _ _ _ _ _ _ _ _ _ _ _) as [s'|] eqn:Hs; [|discriminate]. injection St as <-.
      cbn [SystemModel.sys_step] in Hs. destruct (nth_error (y_tasks (a_sys a)) j) as [[|key seq p f]|] eqn:Hn; try discriminate.
      unfold send_keyed, tx_send in Hs. set (h := MkHeader (shrink_to (VKey8 key) kkind) seq) in Hs. set (r := net _ _ _) in Hs. injection Hs as <-.
      assert (Lj : j < length (y_tasks (a_sys a))) by (apply nth_error_Some; congruence).
      split; cbn [AsyncModel.a_sys AsyncModel.a_cur SystemModel.y_tasks SystemModel.y_trace]; auto.
      + intros j' q Nj Hq. destruct (Nat.eq_dec j' j) as [->|D].
        * rewrite set_nth_same in Hq by auto. injection Hq as <-. eapply quiet_next. eapply Fo; eauto.
        * rewrite set_nth_other in Hq by auto. eauto.
      + destruct Fs as (said & rest & A & B & C). destruct (Nat.eq_dec j i) as [->|D].
        * rewrite Hn in A. injection A as <-. exists (said ++ [EvSend ByHandler h p r]), (f r). rewrite set_nth_same by auto. split; auto.
          split; [apply says_snoc; exact B|]. rewrite !msgs_app, C. reflexivity.
        * exists said, rest. rewrite set_nth_other by auto. repeat split; auto. rewrite msgs_app, C.
          assert (Q : onkey key = false) by (apply (Fo _ _ D Hn key seq p); constructor).
          cbn [messages flat_map]. change (varkey_eqb (VKey8 k) (hdr_key h)) with (onkey key). rewrite Q. apply app_nil_r.
    - destruct (SystemModel.sys_step _ _ _ _ _ _ _ _ _ _ _ _ _ _) as [s'|] eqn:Hs; [|discriminate]. injection St as <-.
      cbn [SystemModel.sys_step] in Hs. match type of Hs with context [nth_error ?l j] => destruct (nth_error l j) as [b|]; [|discriminate] end. injection Hs as <-. apply Same; reflexivity.
    - destruct (SystemModel.sys_step _ _ _ _ _ _ _ _ _ _ _ _ _ _) as [s'|] eqn:Hs; [|discriminate]. injection St as <-.
      cbn [SystemModel.sys_step] in Hs. match type of Hs with context [nth_error ?l j] => destruct (nth_error l j) as [b|]; [|discriminate] end. injection Hs as <-. apply Same; reflexivity.
    - destruct (SystemModel.sys_step _ _ _ _ _ _ _ _ _ _ _ _ _ _) as [s'|] eqn:Hs; [|discriminate]. injection St as <-.
      cbn [SystemModel.sys_step] in Hs. match type of Hs with context [nth_error ?l j] => destruct (nth_error l j) as [b|]; [|discriminate] end. injection Hs as <-. apply Same; reflexivity.
    - destruct (SystemModel.sys_step _ _ _ _ _ _ _ _ _ _ _ _ _ _) as [s'|] eqn:Hs; [|discriminate]. injection St as <-.
      cbn [SystemModel.sys_step] in Hs. injection Hs as <-. apply Same; reflexivity.
  Qed.
End P.
