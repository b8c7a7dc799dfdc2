(** Lemmas about the threads of the server. *)
From Coq Require Import NArith List Bool Arith Lia.
From Verif Require Import KeyModel HeaderModel MinKeyModel SchemaModel MacroModel PostcardModel DispatchModel DispatchSpec SubModel SubProof
  ClientModel SystemModel SystemSpec SystemProof LiveProof AsyncModel AsyncSpec AsyncProof ThreadsSpec.
Import ListNotations.

Lemma thread_eqb_eq x y : thread_eqb x y = true <-> x = y.
Proof.
  destruct x as [i|], y as [j|]; cbn; try (split; discriminate || congruence).
  rewrite Nat.eqb_eq. split; congruence.
Qed.

Lemma part_app {Val SCtx} t o1 o2 (t1 t2 : Trace Val SCtx) : length o1 = length t1 ->
  part_of t (o1 ++ o2) (t1 ++ t2) = part_of t o1 t1 ++ part_of t o2 t2.
Proof.
  intros L. unfold part_of.
  assert (E : combine (o1 ++ o2) (t1 ++ t2) = combine o1 t1 ++ combine o2 t2).
  { revert t1 L. induction o1 as [|x o1 IH]; intros [|y t1] L; cbn in L |- *; try discriminate; auto. injection L as L. now rewrite IH. }
  now rewrite E, filter_app, map_app.
Qed.
Lemma part_all {Val SCtx} t t' (es : Trace Val SCtx) : part_of t (repeat t' (length es)) es = if thread_eqb t' t then es else [].
Proof.
  unfold part_of. destruct (thread_eqb t' t) eqn:E; induction es as [|e es IH]; cbn; auto; rewrite E; cbn; [f_equal|]; exact IH.
Qed.

Section P.
  Context {Val Ctx SCtx : Type}.
  Variable std : StdKeys.
  Variable kkind : VarKeyKind.
  Variable spawn_ctxt : Ctx -> Ctx * SCtx.
  Variable d : Dispatcher Val Ctx.
  Variable enc : Payload Val -> list N.
  Variable task : nat -> SCtx -> VarHeader -> Val -> HProg Val unit.
  Variable bg : list (HProg Val unit).
  Variable cfg : Config.
  Variable net : Trace Val SCtx -> VarHeader -> Payload Val -> TxRes.
  Variable can_spawn : Trace Val SCtx -> nat -> bool.

  Notation Tr := (Trace Val SCtx).
  Notation SProg := (SProg Val SCtx).
  Notation Code := (SProg (Ctx * TxRes)).
  Notation ASys := (ASys Val Ctx SCtx).
  Notation sp_handle := (sp_handle Val Ctx SCtx std kkind spawn_ctxt d).
  Notation a_step := (a_step Val Ctx SCtx std net can_spawn kkind spawn_ctxt d enc task cfg).
  Notation a_run := (a_run Val Ctx SCtx std net can_spawn kkind spawn_ctxt d enc task cfg).
  Notation carry_on := (carry_on Val Ctx SCtx can_spawn task).
  Notation a_sys := (a_sys Val Ctx SCtx).
  Notation a_cur := (a_cur Val Ctx SCtx).
  Notation y_client := (y_client Val Ctx SCtx). Notation y_up := (y_up Val Ctx SCtx). Notation y_down := (y_down Val Ctx SCtx).
  Notation y_ctx := (y_ctx Val Ctx SCtx). Notation y_trace := (y_trace Val Ctx SCtx). Notation y_tasks := (y_tasks Val Ctx SCtx).
  Notation says := (@says Val SCtx kkind).
  Notation programs := (programs task bg).
  Notation tasks_of := (tasks_of Val SCtx task).

  (** *** The thread of the dispatcher *)
  Inductive goes {R} : SProg R -> Tr -> SProg R -> Prop :=
  | go_no p : goes p [] p
  | go_run n h v k es q : goes k es q -> goes (SpRun n h v k) (EvRun n h v :: es) q
  | go_spawn n sc h v k b es q : goes (k b) es q -> goes (SpSpawn n sc h v k) (EvSpawn n sc h v b :: es) q
  | go_send w h p k r es q : goes (k r) es q -> goes (SpSend w h p k) (EvSend w h p r :: es) q.

  Lemma goes_trans {R} (p : SProg R) e1 q e2 r : goes p e1 q -> goes q e2 r -> goes p (e1 ++ e2) r.
  Proof. induction 1; intros G; cbn; [auto| | |]; constructor; auto. Qed.
  Lemma goes_settle {R} (p : SProg R) : forall tr p' tr', settle Val SCtx can_spawn p tr = (p', tr') -> exists evs, tr' = tr ++ evs /\ goes p evs p'.
  Proof.
    induction p as [r|n h v k IH|n sc h v k IH|w h pl k IH]; intros tr p' tr'; cbn [settle]; intros H.
    - injection H as <- <-. exists []. rewrite app_nil_r. split; auto. constructor.
    - destruct (IH _ _ _ H) as (evs & -> & G). exists (EvRun n h v :: evs). rewrite <- app_assoc. split; auto. constructor. auto.
    - destruct (IH _ _ _ _ H) as (evs & -> & G). eexists (EvSpawn n sc h v _ :: evs). rewrite <- app_assoc. split; [reflexivity|]. constructor. exact G.
    - injection H as <- <-. exists []. rewrite app_nil_r. split; auto. constructor.
  Qed.

  (** A transport and an executor that decide as in the history [T]. *)
  Definition net_in (T : Tr) (tr : Tr) (_ : VarHeader) (_ : Payload Val) : TxRes :=
    match nth_error T (length tr) with Some (EvSend _ _ _ r) => r | _ => TxOk end.
  Definition can_in (T : Tr) (tr : Tr) (_ : nat) : bool :=
    match nth_error T (length tr) with Some (EvSpawn _ _ _ _ b) => b | _ => true end.

  Lemma exec_more {R} n c (p : SProg R) : forall tr, exists new, snd (sp_exec Val SCtx n c p tr) = tr ++ new.
  Proof.
    induction p as [r|m h v k IH|m sc h v k IH|w h pl k IH]; intros tr; cbn [sp_exec].
    - exists []. now rewrite app_nil_r.
    - destruct (IH (tr ++ [EvRun m h v])) as (new & ->). rewrite <- app_assoc. eauto.
    - destruct (IH (c tr m) (tr ++ [EvSpawn m sc h v (c tr m)])) as (new & ->). rewrite <- app_assoc. eauto.
    - destruct (IH (n tr h pl) (tr ++ [EvSend w h pl (n tr h pl)])) as (new & ->). rewrite <- app_assoc. eauto.
  Qed.
  Lemma exec_goes {R} T (p : SProg R) es q : goes p es q -> forall tr rest, T = tr ++ es ++ rest ->
    sp_exec Val SCtx (net_in T) (can_in T) p tr = sp_exec Val SCtx (net_in T) (can_in T) q (tr ++ es).
  Proof.
    induction 1 as [p|n h v k es q G IH|n sc h v k b es q G IH|w h p k r es q G IH]; intros tr rest E.
    - now rewrite app_nil_r.
    - cbn [sp_exec]. rewrite (IH (tr ++ [EvRun n h v]) rest), <- app_assoc; auto. rewrite E, <- app_assoc. reflexivity.
    - cbn [sp_exec].
      assert (B : can_in T tr n = b). { unfold can_in. rewrite E, nth_error_app2, Nat.sub_diag by lia. reflexivity. }
      rewrite B. rewrite (IH (tr ++ [EvSpawn n sc h v b]) rest), <- app_assoc; auto. rewrite E, <- app_assoc. reflexivity.
    - cbn [sp_exec].
      assert (B : net_in T tr h p = r). { unfold net_in. rewrite E, nth_error_app2, Nat.sub_diag by lia. reflexivity. }
      rewrite B. rewrite (IH (tr ++ [EvSend w h p r]) rest), <- app_assoc; auto. rewrite E, <- app_assoc. reflexivity.
  Qed.

  (** What the dispatcher's thread has done with the frames [bs] since it was in state
      [ctx0], and what it is about to do. *)
  Inductive worked (ctx0 : Ctx) : list (list N) -> Tr -> Ctx -> option Code -> Prop :=
  | wk_new : worked ctx0 [] [] ctx0 None
  | wk_junk bs tr ctx b : worked ctx0 bs tr ctx None -> take_from_slice b = Done None -> worked ctx0 (bs ++ [b]) tr ctx None
  | wk_some bs tr ctx b hdr body es ctx' res : worked ctx0 bs tr ctx None -> take_from_slice b = Done (Some (hdr, body)) ->
      goes (sp_handle ctx hdr body) es (SpRet (ctx', res)) -> worked ctx0 (bs ++ [b]) (tr ++ es) ctx' None
  | wk_part bs tr ctx b hdr body es p : worked ctx0 bs tr ctx None -> take_from_slice b = Done (Some (hdr, body)) ->
      goes (sp_handle ctx hdr body) es p -> worked ctx0 (bs ++ [b]) (tr ++ es) ctx (Some p).

  Lemma dispatch_app disp bs1 : forall bs2 (ctx : Ctx) (tr : Tr),
    dispatch_all disp (bs1 ++ bs2) ctx tr = dispatch_all disp bs2 (fst (dispatch_all disp bs1 ctx tr)) (snd (dispatch_all disp bs1 ctx tr)).
  Proof.
    induction bs1 as [|b bs1 IH]; intros bs2 ctx tr; auto. cbn [app dispatch_all]. destruct (take_from_slice b) as [[[hdr body]|]|]; auto.
    destruct (disp ctx hdr body tr) as [[c x] t]. apply IH.
  Qed.

  Notation handle T := (handle Val Ctx SCtx std (net_in T) (can_in T) kkind spawn_ctxt d).
  Lemma worked_all ctx0 bs tr ctx cur : worked ctx0 bs tr ctx cur -> forall T rest, T = tr ++ rest ->
    exists more, snd (dispatch_all (handle T) bs ctx0 []) = tr ++ more /\
      (cur = None -> fst (dispatch_all (handle T) bs ctx0 []) = ctx /\ more = []).
  Proof.
    induction 1 as [|bs tr ctx b W IH E|bs tr ctx b hdr body es ctx' res W IH E G|bs tr ctx b hdr body es p W IH E G]; intros T rest ET.
    - exists []. auto.
    - destruct (IH _ _ ET) as (more & A & B). destruct (B eq_refl) as [B1 ->]. rewrite app_nil_r in A.
      exists []. rewrite dispatch_app. cbn [dispatch_all]. rewrite E. cbn [fst snd]. rewrite app_nil_r. auto.
    - rewrite <- app_assoc in ET. destruct (IH _ _ ET) as (more & A & B). destruct (B eq_refl) as [B1 ->]. rewrite app_nil_r in A.
      exists []. rewrite dispatch_app, A, B1. cbn [dispatch_all]. rewrite E, <- exec_handle.
      rewrite (exec_goes T _ _ _ G tr rest ET). cbn [sp_exec fst snd]. rewrite app_nil_r. auto.
    - rewrite <- app_assoc in ET. destruct (IH _ _ ET) as (more & A & B). destruct (B eq_refl) as [B1 ->]. rewrite app_nil_r in A.
      rewrite dispatch_app, A, B1. cbn [dispatch_all]. rewrite E, <- exec_handle, (exec_goes T _ _ _ G tr rest ET).
      destruct (exec_more (net_in T) (can_in T) p (tr ++ es)) as (more & M). destruct (sp_exec _ _ _ _ p _) as [[c x] t]. cbn [snd] in M. cbn [snd].
      exists more. split; [exact M|discriminate].
  Qed.

  (** *** The invariant *)
  Lemma says_snoc p es key seq pl k r : says p es (HSend key seq pl k) ->
    says p (es ++ [EvSend ByHandler (MkHeader (shrink_to (VKey8 key) kkind) seq) pl r]) (k r).
  Proof.
    intros S. remember (HSend key seq pl k) as q eqn:E. induction S as [p|key' seq' p' k' r' es q S IH]; cbn.
    - subst p. constructor. constructor.
    - constructor. auto.
  Qed.

  Lemma programs_app t1 t2 : programs (t1 ++ t2) = programs t1 ++ tasks_of t2.
  Proof. unfold ThreadsSpec.programs. rewrite flat_map_app, app_assoc. reflexivity. Qed.

  Record TInv (ctx0 : Ctx) (bs : list (list N)) (owners : list thread) (a : ASys) : Prop := {
    ti_len : length owners = length (y_trace (a_sys a));
    ti_tasks : length (y_tasks (a_sys a)) = length (programs (y_trace (a_sys a)));
    ti_valid : forall i, In (Some i) owners -> i < length (y_tasks (a_sys a));
    ti_says : forall i p, nth_error (programs (y_trace (a_sys a))) i = Some p ->
      exists c, nth_error (y_tasks (a_sys a)) i = Some c /\ says p (part_of (Some i) owners (y_trace (a_sys a))) c;
    ti_main : worked ctx0 bs (part_of None owners (y_trace (a_sys a))) (y_ctx (a_sys a)) (a_cur a) }.

  Lemma part_none {A} i owners (tr : Trace A SCtx) : ~ In (Some i) owners -> part_of (Some i) owners tr = [].
  Proof.
    intros N. unfold part_of. revert tr. induction owners as [|o owners IH]; intros tr; auto. destruct tr as [|e tr]; auto. cbn [combine filter fst].
    destruct (thread_eqb o (Some i)) eqn:E; [apply thread_eqb_eq in E; subst; destruct N; left; auto|]. apply IH. intros X. apply N. right. auto.
  Qed.

  (** The dispatcher's thread carries on; [bs], [ctx], [main] are what it had done before
      the frame it is dispatching. *)
  Lemma carry_inv ctx0 bs main ctx b hdr body owners s p es : 
    worked ctx0 bs main ctx None -> take_from_slice b = Done (Some (hdr, body)) -> goes (sp_handle ctx hdr body) es p ->
    y_ctx s = ctx -> part_of None owners (y_trace s) = main ++ es -> length owners = length (y_trace s) ->
    length (y_tasks s) = length (programs (y_trace s)) -> (forall i, In (Some i) owners -> i < length (y_tasks s)) ->
    (forall i q, nth_error (programs (y_trace s)) i = Some q -> exists c, nth_error (y_tasks s) i = Some c /\ says q (part_of (Some i) owners (y_trace s)) c) ->
    exists more, TInv ctx0 (bs ++ [b]) (owners ++ more) (carry_on s p).
  Proof.
    intros W Eb G Ec Em L Lt V Sy. unfold AsyncModel.carry_on. destruct (settle Val SCtx can_spawn p (y_trace s)) as [p' tr'] eqn:Es.
    destruct (goes_settle _ _ _ _ Es) as (evs & -> & G'). exists (repeat None (length evs)).
    pose proof (goes_trans _ _ _ _ _ G G') as GG. rewrite skipn_exact.
    assert (Main : part_of None (owners ++ repeat None (length evs)) (y_trace s ++ evs) = main ++ (es ++ evs)).
    { rewrite part_app by auto. rewrite part_all. cbn [thread_eqb]. rewrite Em, app_assoc. reflexivity. }
    assert (Tasks : length (y_tasks s ++ tasks_of evs) = length (programs (y_trace s ++ evs))).
    { rewrite programs_app, !app_length. lia. }
    assert (Len : length (owners ++ repeat None (length evs)) = length (y_trace s ++ evs)).
    { rewrite !app_length, repeat_length. lia. }
    assert (Valid : forall i, In (Some i) (owners ++ repeat None (length evs)) -> i < length (y_tasks s ++ tasks_of evs)).
    { intros i Hi. apply in_app_iff in Hi as [Hi|Hi]; [|apply repeat_spec in Hi; discriminate]. specialize (V _ Hi). rewrite app_length. lia. }
    assert (Says : forall i q, nth_error (programs (y_trace s ++ evs)) i = Some q ->
      exists c, nth_error (y_tasks s ++ tasks_of evs) i = Some c /\ says q (part_of (Some i) (owners ++ repeat None (length evs)) (y_trace s ++ evs)) c).
    { intros i q Hq. rewrite part_app by auto. rewrite part_all. cbn [thread_eqb]. rewrite app_nil_r. rewrite programs_app in Hq.
      destruct (lt_dec i (length (y_tasks s))) as [Hi|Hi].
      - rewrite nth_error_app1 in Hq by lia. destruct (Sy _ _ Hq) as (c & Hc & S). exists c. split; auto. rewrite nth_error_app1; auto.
      - rewrite nth_error_app2 in Hq by lia. exists q. split; [rewrite nth_error_app2 by lia; now rewrite Lt|].
        rewrite part_none; [constructor|]. intros X. specialize (V _ X). lia. }
    destruct p' as [[ctx' res]|n h v k|n sc h v k|w h pl k]; (split; cbn [AsyncModel.a_sys AsyncModel.a_cur SystemModel.y_trace SystemModel.y_tasks SystemModel.y_ctx]; auto; rewrite Main; try rewrite Ec).
    - eapply wk_some; eauto.
    - eapply wk_part; eauto.
    - eapply wk_part; eauto.
    - eapply wk_part; eauto.
  Qed.

  Lemma sys_step_trace l s s' : (forall i, l <> SServe i) -> (forall i, l <> STask i) ->
    sys_step Val Ctx SCtx std net can_spawn kkind spawn_ctxt d enc task cfg l s = Some s' ->
    y_trace s' = y_trace s /\ y_tasks s' = y_tasks s /\ y_ctx s' = y_ctx s.
  Proof.
    intros N1 N2 H. destruct l as [l|i|i|i|i|i|i n|i]; cbn [SystemModel.sys_step] in H.
    - destruct (step_client std net can_spawn kkind spawn_ctxt enc task cfg d l s s') as (e & _ & _ & ->); [exact H|]. auto.
    - destruct (nth_error _ _); [|discriminate]. destruct (step _ _ _) as [[]|]; [|discriminate]. injection H as <-. auto.
    - destruct (N1 i eq_refl).
    - destruct (N2 i eq_refl).
    - destruct (nth_error _ _); [|discriminate]. injection H as <-. auto.
    - destruct (nth_error _ _); [|discriminate]. injection H as <-. auto.
    - destruct (nth_error _ _); [|discriminate]. injection H as <-. auto.
    - injection H as <-. auto.
  Qed.

  Lemma step_inv ctx0 bs owners a l a' : a_ok a -> TInv ctx0 bs owners a -> a_step l a = Some a' ->
    exists more, TInv ctx0 (bs ++ takes l a) (owners ++ more) a'.
  Proof.
    intros Ok [L Lt V Sy W] St. destruct l as [l|].
    - assert (Other : (forall i, l <> SServe i) -> (forall i, l <> STask i) -> exists more, TInv ctx0 (bs ++ takes (ASystem l) a) (owners ++ more) a').
      { intros N1 N2.
        assert (St' : match sys_step Val Ctx SCtx std net can_spawn kkind spawn_ctxt d enc task cfg l (a_sys a) with Some s' => Some (MkASys _ _ _ s' (a_cur a)) | None => None end = Some a').
        { destruct l; try exact St. destruct (N1 i eq_refl). }
        destruct (sys_step _ _ _ _ _ _ _ _ _ _ _ _ _ _) as [s'|] eqn:E; [|discriminate]. injection St' as <-.
        destruct (sys_step_trace _ _ _ N1 N2 E) as (E1 & E2 & E3).
        assert (T : takes (ASystem l) a = []). { destruct l; auto. destruct (N1 i eq_refl). }
        exists []. rewrite T, !app_nil_r. split; cbn [AsyncModel.a_sys AsyncModel.a_cur]; rewrite ?E1, ?E2, ?E3; auto. }
      destruct l as [l|i|i|i|i|i|i n|i]; try (apply Other; discriminate); clear Other; cbn [AsyncModel.a_step] in St.
      + (* a new frame *)
        destruct (a_cur a) eqn:Ec; [discriminate|]. destruct (y_serving _ _ _ _); [|discriminate]. cbn [takes].
        destruct (nth_error (y_up (a_sys a)) i) as [b|]; [|discriminate].
        destruct (take_from_slice b) as [[[hdr body]|]|] eqn:Eb; [| |discriminate]; injection St as <-.
        * eapply carry_inv; eauto; cbn [SystemModel.y_trace SystemModel.y_tasks SystemModel.y_ctx]; auto. { apply go_no. } now rewrite app_nil_r.
        * exists []. rewrite app_nil_r. split; cbn [AsyncModel.a_sys AsyncModel.a_cur SystemModel.y_trace SystemModel.y_tasks SystemModel.y_ctx]; auto.
          apply wk_junk; auto.
      + (* a task *)
        destruct (sys_step _ _ _ _ _ _ _ _ _ _ _ _ _ _) as [s'|] eqn:E; [|discriminate]. injection St as <-. cbn [SystemModel.sys_step] in E.
        destruct (nth_error (y_tasks (a_sys a)) i) as [[|key seq pl k]|] eqn:Ei; try discriminate.
        unfold send_keyed, tx_send in E. rewrite skipn_exact in E. injection E as <-.
        set (r := net _ _ _). set (ev := EvSend ByHandler _ pl r). exists [Some i]. cbn [takes]. rewrite app_nil_r.
        assert (Hi : i < length (y_tasks (a_sys a))) by (apply nth_error_Some; congruence).
        assert (Pr : programs (y_trace (a_sys a) ++ [ev]) = programs (y_trace (a_sys a))).
        { rewrite programs_app. cbn. apply app_nil_r. }
        split; cbn [AsyncModel.a_sys AsyncModel.a_cur SystemModel.y_trace SystemModel.y_tasks SystemModel.y_ctx].
        * rewrite !app_length. cbn. lia.
        * rewrite set_nth_length, Pr. exact Lt.
        * intros j Hj. rewrite set_nth_length. apply in_app_iff in Hj as [Hj|[[= <-]|[]]]; auto.
        * intros j p. rewrite Pr. intros Hp. destruct (Sy _ _ Hp) as (c & Hc & S). rewrite part_app by auto.
          destruct (Nat.eq_dec i j) as [<-|Ne].
          -- rewrite Ei in Hc. injection Hc as <-. exists (k r). split; [apply set_nth_same; auto|].
             unfold part_of at 2. cbn [combine filter fst]. assert (X : thread_eqb (Some i) (Some i) = true) by (now apply thread_eqb_eq). rewrite X. cbn [map snd]. apply says_snoc. exact S.
          -- exists c. split; [rewrite set_nth_other; auto|].
             unfold part_of at 2. cbn [combine filter fst]. destruct (thread_eqb (Some i) (Some j)) eqn:X; [apply thread_eqb_eq in X; congruence|].
             cbn [map]. rewrite app_nil_r. exact S.
        * rewrite part_app by auto. change (part_of None [Some i] [ev]) with (@nil (Event Val SCtx)). rewrite app_nil_r. exact W.
    - cbn [AsyncModel.a_step] in St. destruct (a_cur a) as [[| | |w h pl k]|] eqn:Ec; try discriminate. injection St as <-. cbn [takes]. rewrite app_nil_r.
      set (r := net _ _ _). set (ev := EvSend w h pl r).
      inversion W as [ | | |bs0 main ctx b hdr body es p W0 Eb G Ebs Em Ectx Ep]; subst.
      assert (Pr : programs (y_trace (a_sys a) ++ [ev]) = programs (y_trace (a_sys a))).
      { rewrite programs_app. cbn. apply app_nil_r. }
      destruct (carry_inv ctx0 bs0 main (y_ctx (a_sys a)) b hdr body (owners ++ [None])
        (MkSys Val Ctx SCtx (y_client (a_sys a)) (y_up (a_sys a)) (y_down (a_sys a) ++ [rpc_to_bytes (MkFrame h (enc pl))]) (y_ctx (a_sys a))
           (y_trace (a_sys a) ++ [ev]) (y_tasks (a_sys a)) (y_serving _ _ _ (a_sys a))) (k r) (es ++ [ev])) as (more & I); cbn [SystemModel.y_trace SystemModel.y_tasks SystemModel.y_ctx]; auto.
      + eapply goes_trans; [exact G|]. constructor. constructor.
      + rewrite part_app by auto. change (part_of None [None] [ev]) with [ev]. rewrite <- Em, app_assoc. reflexivity.
      + rewrite !app_length. cbn. lia.
      + rewrite Pr. auto.
      + intros i Hi. apply in_app_iff in Hi as [Hi|[Hi|[]]]; [auto|discriminate].
      + intros i q. rewrite Pr. intros Hq. destruct (Sy _ _ Hq) as (c & Hc & S). exists c. split; auto.
        rewrite part_app by auto. change (part_of (Some i) [None] [ev]) with (@nil (Event Val SCtx)). rewrite app_nil_r. exact S.
      + exists ([None] ++ more). rewrite app_assoc. exact I.
  Qed.

  Lemma run_inv ctx0 ls : forall bs owners a a' cl es, a_ok a -> TInv ctx0 bs owners a -> a_run ls a = Some (a', cl, es) ->
    exists more, TInv ctx0 (bs ++ taken a_step ls a) (owners ++ more) a'.
  Proof.
    induction ls as [|l ls IH]; intros bs owners a a' cl es Ok I H; cbn [AsyncModel.a_run] in H.
    - injection H as <- <- <-. exists []. cbn [taken]. rewrite !app_nil_r. exact I.
    - destruct (a_step l a) as [a1|] eqn:St; [|discriminate].
      destruct (AsyncModel.a_run _ _ _ _ _ _ _ _ _ _ _ _ ls a1) as [[[a2 cl2] es2]|] eqn:R; [|discriminate].
      assert (a2 = a') as ->.
      { destruct (a_client_label _ _ _ l a); [destruct (step cfg _ _) as [[]|]|]; inversion H; auto. }
      destruct (step_inv _ _ _ _ _ _ Ok I St) as (m1 & I1).
      assert (Ok1 : a_ok a1) by (eapply a_step_ok; eauto).
      destruct (IH _ _ _ _ _ _ Ok1 I1 R) as (m2 & I2). exists (m1 ++ m2). cbn [taken]. rewrite St, !app_assoc in *. exact I2.
  Qed.

  Lemma new_inv ctx0 : TInv ctx0 [] [] (asys_new Val Ctx SCtx bg ctx0).
  Proof.
    split; cbn; auto.
    - unfold ThreadsSpec.programs. cbn. now rewrite app_nil_r.
    - intros i [].
    - intros i p Hp. unfold ThreadsSpec.programs in Hp. cbn in Hp. rewrite app_nil_r in Hp. exists p. split; auto. constructor.
    - constructor.
  Qed.
End P.
