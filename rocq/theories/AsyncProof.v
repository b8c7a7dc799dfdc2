(** Lemmas about the server await by await: every history is, for the client and the
    handlers, one of the system in which dispatching is a single step. *)
From Coq Require Import NArith List Bool Arith Lia Permutation.
From Verif Require Import KeyModel HeaderModel MinKeyModel SchemaModel MacroModel PostcardModel DispatchModel DispatchSpec SubModel SubProof
  ClientModel ClientHist UsbSpec FlowBase SystemModel SystemSpec SystemProof LiveSpec LiveProof AsyncModel AsyncSpec.
Import ListNotations.

Section P.
  Context {Val Ctx SCtx : Type}.
  Variable std : StdKeys.
  Variable kkind : VarKeyKind.
  Variable spawn_ctxt : Ctx -> Ctx * SCtx.
  Variable d : Dispatcher Val Ctx.
  Variable enc : Payload Val -> list N.
  Variable task : nat -> SCtx -> VarHeader -> Val -> HProg Val unit.
  Variable bg : list (HProg Val unit).
  Variable cfg : Config.

  Notation Tr := (Trace Val SCtx).
  Notation SProg := (SProg Val SCtx).
  Notation Code := (SProg (Ctx * TxRes)).
  Notation Sys := (Sys Val Ctx SCtx).
  Notation ASys := (ASys Val Ctx SCtx).
  Notation sp_handle := (sp_handle Val Ctx SCtx std kkind spawn_ctxt d).
  Notation sp_user := (sp_user Val SCtx kkind).
  Notation sp_schema_loop := (sp_schema_loop Val SCtx std kkind).

  (** *** Uninterrupted, it is the dispatcher of DispatchModel.v *)
  Section Exec.
    Variable net : Tr -> VarHeader -> Payload Val -> TxRes.
    Variable can_spawn : Tr -> nat -> bool.
    Notation sp_exec := (sp_exec Val SCtx net can_spawn).
    Notation handle := (handle Val Ctx SCtx std net can_spawn kkind spawn_ctxt).

    Lemma exec_user {A R} (p : HProg Val A) (k : A -> SProg R) : forall tr,
      sp_exec (sp_user p k) tr = let (a, tr') := run_prog Val SCtx net kkind p tr in sp_exec (k a) tr'.
    Proof. induction p as [a|key seq pl k' IH]; intros tr; cbn; [reflexivity|]. rewrite IH. reflexivity. Qed.
    Lemma exec_loop {R} items : forall c e (k : N -> N -> SProg R) tr,
      sp_exec (sp_schema_loop items c e k) tr = let '(c', e', tr') := schema_loop Val SCtx std net kkind items c e tr in sp_exec (k c' e') tr'.
    Proof. induction items as [|x tl IH]; intros c e k tr; cbn -[N.modulo N.add]; [reflexivity|]. rewrite IH. reflexivity. Qed.
    Lemma exec_handle ctx hdr body tr : sp_exec (sp_handle ctx hdr body) tr = handle d ctx hdr body tr.
    Proof.
      unfold AsyncModel.sp_handle, DispatchModel.handle. destruct (keyb_of _ _) as [keyb|]; [|reflexivity].
      destruct (pat_eqb keyb _). { destruct (from_bytes_u32 body); reflexivity. }
      destruct (pat_eqb keyb _).
      { unfold sp_schemas, send_all_schemas. rewrite exec_loop. destruct (schema_loop _ _ _ _ _ _ 0%N _ tr) as [[c1 e1] tr1].
        rewrite exec_loop. destruct (schema_loop _ _ _ _ _ _ c1 _ tr1) as [[c2 e2] tr2].
        rewrite exec_loop. destruct (schema_loop _ _ _ _ _ _ c2 _ tr2) as [[c3 e3] tr3].
        rewrite exec_loop. destruct (schema_loop _ _ _ _ _ _ c3 _ tr3) as [[c4 e4] tr4]. reflexivity. }
      assert (T : forall tps tr, sp_exec (sp_match_tps Val Ctx SCtx std kkind spawn_ctxt (d_kind _ _ d) keyb tps ctx hdr body) tr =
        match_tps Val Ctx SCtx std net can_spawn kkind spawn_ctxt (d_kind _ _ d) keyb tps ctx hdr body tr).
      { induction tps as [|a tl IH]; intros t; cbn [sp_match_tps match_tps]; [reflexivity|]. destruct (pat_eqb _ _); [|apply IH].
        destruct (ta_deser _ _ a body) as [msg|]; [|reflexivity]. unfold sp_tp_arm, tp_arm.
        destruct (ta_flavor _ _ a); cbn [AsyncModel.sp_exec]; try rewrite exec_user; try destruct (run_prog _ _ _ _ _ _); try destruct (spawn_ctxt ctx); reflexivity. }
      generalize (d_eps _ _ d). intros eps. revert tr. induction eps as [|a tl IH]; intros t; cbn [sp_match_eps match_eps]; [apply T|].
      destruct (pat_eqb _ _); [|apply IH]. destruct (ea_deser _ _ a body) as [req|]; [|reflexivity]. unfold sp_ep_arm, ep_arm.
      destruct (ea_flavor _ _ a); cbn [AsyncModel.sp_exec].
      1,2: rewrite exec_user; destruct (run_prog _ _ _ _ _ _) as [[ctx' reply] t1]; cbn [fst snd]; unfold sp_keyed, send_keyed, tx_send; cbn [AsyncModel.sp_exec];
        destruct (is_err _); reflexivity.
      destruct (spawn_ctxt ctx) as [ctx' sc]. cbn [fst snd]. destruct (can_spawn t (ea_name _ _ a)); reflexivity.
    Qed.
  End Exec.

  (** *** Handlers and tasks are started before the first transmission *)
  Fixpoint quiet {R} (p : SProg R) : Prop :=
    match p with
    | SpRet _ => True
    | SpSend _ _ _ k => forall r, quiet (k r)
    | _ => False
    end.
  Fixpoint starts_first {R} (p : SProg R) : Prop :=
    match p with
    | SpRet _ => True
    | SpRun _ _ _ k => starts_first k
    | SpSpawn _ _ _ _ k => forall b, starts_first (k b)
    | SpSend _ _ _ k => forall r, quiet (k r)
    end.
  Lemma quiet_starts {R} (p : SProg R) : quiet p -> starts_first p.
  Proof. destruct p; cbn; tauto. Qed.
  Lemma quiet_user {A R} (p : HProg Val A) (k : A -> SProg R) : (forall a, quiet (k a)) -> quiet (sp_user p k).
  Proof. intros H. induction p as [a|key seq pl k' IH]; cbn; auto. Qed.
  Lemma quiet_loop {R} items : forall c e (k : N -> N -> SProg R), (forall c e, quiet (k c e)) -> quiet (sp_schema_loop items c e k).
  Proof. induction items as [|x tl IH]; intros c e k H; cbn -[N.modulo N.add]; auto. Qed.
  Lemma handle_starts ctx hdr body : starts_first (sp_handle ctx hdr body).
  Proof.
    unfold AsyncModel.sp_handle. destruct (keyb_of _ _) as [keyb|]; [|cbn; auto].
    destruct (pat_eqb keyb _). { destruct (from_bytes_u32 body); cbn; auto. }
    destruct (pat_eqb keyb _). { apply quiet_starts. unfold sp_schemas. do 4 (apply quiet_loop; intros). cbn. auto. }
    generalize (d_eps _ _ d). intros eps. induction eps as [|a tl IH]; cbn [sp_match_eps].
    - generalize (d_tps _ _ d). intros tps. induction tps as [|a tl IH]; cbn [sp_match_tps]; [cbn; auto|].
      destruct (pat_eqb _ _); auto. destruct (ta_deser _ _ a body) as [msg|]; [|cbn; auto]. unfold sp_tp_arm.
      destruct (ta_flavor _ _ a); cbn; auto; apply quiet_starts, quiet_user; cbn; auto.
    - destruct (pat_eqb _ _); auto. destruct (ea_deser _ _ a body) as [req|]; [|cbn; auto]. unfold sp_ep_arm.
      destruct (ea_flavor _ _ a); cbn; auto.
      1,2: apply quiet_starts, quiet_user; cbn; intros x r; destruct (is_err r); cbn; auto.
      intros []; cbn; auto.
  Qed.

  (** *** What remains, given the results of the transmissions *)
  Fixpoint complete {R} (p : SProg R) (rs : list TxRes) (dflt : R) : R * Tr :=
    match p with
    | SpRet r => (r, [])
    | SpSend w h pl k => let r := hd TxOk rs in let (x, new) := complete (k r) (tl rs) dflt in (x, EvSend w h pl r :: new)
    | _ => (dflt, [])
    end.

  Definition outcomes (tr : Tr) : list TxRes := flat_map (fun e => match e with EvSend _ _ _ r => [r] | _ => [] end) tr.
  Definition spawns (tr : Tr) : list bool := flat_map (fun e => match e with EvSpawn _ _ _ _ b => [b] | _ => [] end) tr.
  Lemma outcomes_app a b : outcomes (a ++ b) = outcomes a ++ outcomes b. Proof. apply flat_map_app. Qed.
  Lemma spawns_app a b : spawns (a ++ b) = spawns a ++ spawns b. Proof. apply flat_map_app. Qed.
  Lemma starts_app (a b : Tr) : starts (a ++ b) = starts a ++ starts b. Proof. apply filter_app. Qed.

  (** The network and executor that have these results, in this order. *)
  Definition net_of (os : list TxRes) (tr : Tr) (_ : VarHeader) (_ : Payload Val) : TxRes := nth (length (outcomes tr)) os TxOk.
  Definition can_of (qs : list bool) (tr : Tr) (_ : nat) : bool := nth (length (spawns tr)) qs true.

  Lemma net_at tr r os h p : net_of (outcomes tr ++ r :: os) tr h p = r.
  Proof. unfold net_of. rewrite app_nth2, Nat.sub_diag by lia. reflexivity. Qed.
  Lemma can_at tr r qs n : can_of (spawns tr ++ r :: qs) tr n = r.
  Proof. unfold can_of. rewrite app_nth2, Nat.sub_diag by lia. reflexivity. Qed.

  Lemma complete_sends {R} (p : SProg R) dflt : forall rs, starts (snd (complete p rs dflt)) = [] /\ spawns (snd (complete p rs dflt)) = [] /\
    tasks_of _ _ task (snd (complete p rs dflt)) = [].
  Proof.
    induction p as [r|n h v k IH|n sc h v k IH|w h pl k IH]; intros rs; cbn; auto.
    specialize (IH (hd TxOk rs) (tl rs)). destruct (complete (k _) _ _) as [x new]. exact IH.
  Qed.

  Lemma exec_complete {R} can (p : SProg R) dflt : quiet p -> forall rs tr os,
    sp_exec Val SCtx (net_of (outcomes tr ++ outcomes (snd (complete p rs dflt)) ++ os)) can p tr =
    (fst (complete p rs dflt), tr ++ snd (complete p rs dflt)).
  Proof.
    induction p as [r|n h v k IH|n sc h v k IH|w h pl k IH]; cbn [quiet]; intros Q rs tr os; try contradiction.
    - cbn. now rewrite app_nil_r.
    - cbn [complete AsyncModel.sp_exec]. specialize (IH (hd TxOk rs) (Q _) (tl rs) (tr ++ [EvSend w h pl (hd TxOk rs)]) os).
      destruct (complete (k _) _ _) as [x new]. cbn [fst snd] in IH |- *. cbn [outcomes flat_map app]. fold (outcomes new).
      rewrite net_at. rewrite outcomes_app, <- !app_assoc in IH. exact IH.
  Qed.

  (** *** Up to the first transmission *)
  Section Settle.
    Variable can_spawn : Tr -> nat -> bool.
    Notation settle := (settle Val SCtx can_spawn).

    Lemma settle_spec {R} (p : SProg R) : forall tr p' tr', settle p tr = (p', tr') ->
      exists evs, tr' = tr ++ evs /\ outcomes evs = [] /\ (starts_first p -> quiet p') /\
        (p' = p \/ ~ quiet p) /\
        (match p' with SpRet _ | SpSend _ _ _ _ => True | _ => False end) /\
        forall t net qs, sp_exec Val SCtx net (can_of (spawns t ++ spawns evs ++ qs)) p t =
          sp_exec Val SCtx net (can_of (spawns t ++ spawns evs ++ qs)) p' (t ++ evs).
    Proof.
      induction p as [r|n h v k IH|n sc h v k IH|w h pl k IH]; intros tr p' tr'; cbn [AsyncModel.settle]; intros H.
      - injection H as <- <-. exists []. cbn. split; [now rewrite app_nil_r|]. do 4 (split; [auto|]). intros. now rewrite app_nil_r.
      - destruct (IH _ _ _ H) as (evs & -> & O & Q & _ & S & E). exists (EvRun n h v :: evs). split; [now rewrite <- app_assoc|]. split; [exact O|]. split; [exact Q|].
        split; [right; intros []|]. split; [exact S|]. intros t net qs. cbn [spawns flat_map app AsyncModel.sp_exec]. fold (spawns evs). specialize (E (t ++ [EvRun n h v]) net qs).
        rewrite spawns_app in E. cbn [spawns flat_map app] in E. rewrite app_nil_r in E. fold (spawns evs) in E. fold (spawns t) in E. rewrite E, <- app_assoc. reflexivity.
      - destruct (IH _ _ _ _ H) as (evs & -> & O & Q & _ & S & E). set (b := can_spawn tr n) in *. exists (EvSpawn n sc h v b :: evs).
        split; [now rewrite <- app_assoc|]. split; [exact O|]. split; [intros X; exact (Q (X _))|].
        split; [right; intros []|]. split; [exact S|]. intros t net qs. cbn [AsyncModel.sp_exec].
        assert (Es : spawns t ++ spawns (EvSpawn n sc h v b :: evs) ++ qs = spawns t ++ b :: spawns evs ++ qs) by reflexivity. rewrite Es, can_at.
        specialize (E (t ++ [EvSpawn n sc h v b]) net qs). rewrite spawns_app, <- !app_assoc in E. exact E.
      - injection H as <- <-. exists []. cbn [outcomes flat_map]. split; [now rewrite app_nil_r|]. split; [auto|]. split; [auto|]. split; [auto|]. split; [auto|].
        intros. now rewrite app_nil_r.
    Qed.
  End Settle.

  (** *** The simulation *)
  Variable net : Tr -> VarHeader -> Payload Val -> TxRes.
  Variable can_spawn : Tr -> nat -> bool.
  Notation a_step := (a_step Val Ctx SCtx std net can_spawn kkind spawn_ctxt d enc task cfg).
  Notation a_run := (a_run Val Ctx SCtx std net can_spawn kkind spawn_ctxt d enc task cfg).
  Notation carry_on := (carry_on Val Ctx SCtx can_spawn task).
  Notation sys_step n c := (sys_step Val Ctx SCtx std n c kkind spawn_ctxt d enc task cfg).
  Notation sys_run n c := (sys_run Val Ctx SCtx std n c kkind spawn_ctxt d enc task cfg).
  Notation frames_sent := (frames_sent Val SCtx enc).
  Notation a_sys := (a_sys Val Ctx SCtx).
  Notation a_cur := (a_cur Val Ctx SCtx).
  Notation y_client := (y_client Val Ctx SCtx). Notation y_up := (y_up Val Ctx SCtx). Notation y_down := (y_down Val Ctx SCtx).
  Notation y_ctx := (y_ctx Val Ctx SCtx). Notation y_trace := (y_trace Val Ctx SCtx). Notation y_tasks := (y_tasks Val Ctx SCtx).
  Notation y_serving := (y_serving Val Ctx SCtx).

  Definition lives (res : TxRes) : bool := match res with TxErr TxConnectionClosed | TxErr TxTimeout => false | _ => true end.

  (** What the server will have become when it is done with its frame, and what it will
      have sent, if the transmissions to come end like [rs]. *)
  Definition ahead (a : ASys) (rs : list TxRes) : Ctx * bool * Tr :=
    match a_cur a with
    | None => (y_ctx (a_sys a), y_serving (a_sys a), [])
    | Some p => let '(ctx, res, new) := complete p rs (y_ctx (a_sys a), TxOk) in (ctx, lives res, new)
    end.

  Definition a_ok (a : ASys) : Prop :=
    match a_cur a with None => True | Some p => quiet p /\ match p with SpSend _ _ _ _ => True | _ => False end end.

  Record ARel (a : ASys) (s : Sys) (rs : list TxRes) : Prop := {
    ar_client : y_client s = y_client (a_sys a);
    ar_up : y_up s = y_up (a_sys a);
    ar_tasks : y_tasks s = y_tasks (a_sys a);
    ar_ctx : y_ctx s = fst (fst (ahead a rs));
    ar_serving : y_serving s = snd (fst (ahead a rs));
    ar_down : Permutation (y_down s) (y_down (a_sys a) ++ frames_sent (snd (ahead a rs)));
    ar_trace : Permutation (y_trace s) (y_trace (a_sys a) ++ snd (ahead a rs));
    ar_starts : starts (y_trace s) = starts (y_trace (a_sys a)) }.

  (** The steps that only differ in the position of a frame on the link to the client. *)
  Inductive like : SysLabel -> SysLabel -> Prop :=
  | lk_same l : like l l
  | lk_recv i j : like (SRecv i) (SRecv j)
  | lk_lose i j : like (SLoseDown i) (SLoseDown j)
  | lk_cut i j n : like (SCutDown i n) (SCutDown j n)
  | lk_empty i j : like (SEmptyDown i) (SEmptyDown j).

  Lemma perm_find {A} (l1 l2 : list A) l3 i b : Permutation l1 (l2 ++ l3) -> nth_error l2 i = Some b ->
    exists j, nth_error l1 j = Some b /\ Permutation (remove_nth j l1) (remove_nth i l2 ++ l3).
  Proof.
    intros P N. assert (In b l1) as I. { eapply Permutation_in; [apply Permutation_sym, P|]. apply in_app_iff. left. eapply nth_error_In; eauto. }
    apply In_nth_error in I as (j & J). exists j. split; auto. apply (Permutation_cons_inv (a := b)).
    eapply perm_trans; [apply Permutation_sym, (remove_nth_perm _ _ _ J)|]. eapply perm_trans; [exact P|].
    change (b :: remove_nth i l2 ++ l3) with ((b :: remove_nth i l2) ++ l3). apply Permutation_app_tail, remove_nth_perm, N.
  Qed.
  Lemma set_perm {A} i (l : list A) x y : nth_error l i = Some y -> Permutation (set_nth i x l) (x :: remove_nth i l).
  Proof.
    intros H. rewrite (set_nth_split _ _ _ _ _ H). eapply perm_trans; [apply Permutation_sym, Permutation_middle|]. constructor.
    clear -H. revert i H. induction l as [|z l IH]; intros [|i] H; cbn in *; try discriminate; auto.
  Qed.

  (** A step of the rest of the system. *)
  Lemma sim_other l a y s rs : (forall i, l <> SServe i) -> ARel a s rs ->
    sys_step net can_spawn l (a_sys a) = Some y ->
    exists l' s', like l l' /\ client_label _ _ _ l' s = client_label _ _ _ l (a_sys a) /\
      (forall os c, sys_step (net_of (outcomes (y_trace s') ++ os)) c l' s = Some s') /\
      (exists new, y_trace s' = y_trace s ++ new) /\
      ARel (MkASys _ _ _ y (a_cur a)) s' rs /\ loses_down l' s = loses_down l (a_sys a) /\ loses_up l' s = loses_up l (a_sys a).
  Proof.
    intros Hn [Rc Ru Rt Rx Rv Rd Rr Rs] H.
    destruct l as [l|i|i|i|i|i|i n|i]; cbn [SystemModel.sys_step] in H.
    - assert (E : exists c e, (forall b, l <> LRecv b) /\ step cfg l (y_client (a_sys a)) = Some (c, e) /\
        y = MkSys _ _ _ c (y_up (a_sys a) ++ wire_of e) (y_down (a_sys a)) (y_ctx (a_sys a)) (y_trace (a_sys a)) (y_tasks (a_sys a)) (y_serving (a_sys a))).
      { destruct l; try discriminate H; destruct (step cfg _ (y_client (a_sys a))) as [[c e]|]; try discriminate H; injection H as <-; exists c, e; (split; [discriminate|auto]). }
      destruct E as (c & e & Nr & St & ->).
      eexists (SClient l), (MkSys _ _ _ c (y_up s ++ wire_of e) (y_down s) (y_ctx s) (y_trace s) (y_tasks s) (y_serving s)).
      split; [constructor|]. split; [reflexivity|]. split.
      { intros os cc. cbn [SystemModel.sys_step]. rewrite Rc, St. destruct l; try reflexivity. destruct (Nr bytes eq_refl). }
      split; [exists []; now rewrite app_nil_r|]. split; [|auto]. split; cbn; auto. now rewrite Ru.
    - destruct (nth_error (y_down (a_sys a)) i) as [b|] eqn:Nb; [|discriminate].
      destruct (step cfg (LRecv b) (y_client (a_sys a))) as [[c e]|] eqn:St; [|discriminate]. injection H as <-.
      destruct (perm_find _ _ _ _ _ Rd Nb) as (j & J & P).
      eexists (SRecv j), (MkSys _ _ _ c (y_up s) (remove_nth j (y_down s)) (y_ctx s) (y_trace s) (y_tasks s) (y_serving s)).
      split; [constructor|]. split; [cbn; now rewrite J, Nb|]. split.
      { intros os cc. cbn [SystemModel.sys_step]. rewrite J, Rc, St. reflexivity. }
      split; [exists []; now rewrite app_nil_r|]. split; [|cbn [loses_down loses_up]; rewrite ?J, ?Nb; auto]. split; cbn; auto.
    - destruct (Hn i eq_refl).
    - destruct (nth_error (y_tasks (a_sys a)) i) as [[|key seq p k]|] eqn:Nt; try discriminate H. unfold send_keyed, tx_send in H. injection H as <-.
      set (h := MkHeader (shrink_to (VKey8 key) kkind) seq) in *. set (r := net (y_trace (a_sys a)) h p) in *.
      eexists (STask i), (MkSys _ _ _ (y_client s) (y_up s) (y_down s ++ frames_sent [EvSend ByHandler h p r]) (y_ctx s)
        (y_trace s ++ [EvSend ByHandler h p r]) (set_nth i (k r) (y_tasks s)) (y_serving s)).
      split; [constructor|]. split; [reflexivity|]. split.
      { intros os cc. cbn [SystemModel.sys_step]. rewrite Rt, Nt. unfold send_keyed, tx_send. fold h. cbn [SystemModel.y_trace].
        rewrite outcomes_app, <- app_assoc. cbn [outcomes flat_map app]. fold (outcomes (y_trace s)). rewrite net_at.
        rewrite skipn_app, skipn_all, Nat.sub_diag. reflexivity. }
      split; [eexists; reflexivity|]. split; [|auto]. rewrite skipn_app, skipn_all, Nat.sub_diag. cbn [skipn app].
      split; cbn [AsyncModel.a_sys SystemModel.y_client SystemModel.y_up SystemModel.y_down SystemModel.y_ctx SystemModel.y_trace SystemModel.y_tasks SystemModel.y_serving]; auto.
      + now rewrite Rt.
      + rewrite <- app_assoc. eapply perm_trans; [apply Permutation_app_tail, Rd|]. rewrite <- app_assoc. apply Permutation_app_head. apply Permutation_app_comm.
      + rewrite <- app_assoc. eapply perm_trans; [apply Permutation_app_tail, Rr|]. rewrite <- app_assoc. apply Permutation_app_head. apply Permutation_app_comm.
      + rewrite !starts_app, Rs. reflexivity.
    - destruct (nth_error (y_up (a_sys a)) i) as [b|] eqn:Nb; [|discriminate]. injection H as <-.
      eexists (SLoseUp i), (MkSys _ _ _ (y_client s) (remove_nth i (y_up s)) (y_down s) (y_ctx s) (y_trace s) (y_tasks s) (y_serving s)).
      split; [constructor|]. split; [reflexivity|]. split. { intros. cbn [SystemModel.sys_step]. rewrite Ru, Nb. reflexivity. }
      split; [exists []; now rewrite app_nil_r|]. split; [|cbn [loses_down loses_up]; rewrite Ru; auto]. split; cbn; auto. now rewrite Ru.
    - destruct (nth_error (y_down (a_sys a)) i) as [b|] eqn:Nb; [|discriminate]. injection H as <-.
      destruct (perm_find _ _ _ _ _ Rd Nb) as (j & J & P).
      eexists (SLoseDown j), (MkSys _ _ _ (y_client s) (y_up s) (remove_nth j (y_down s)) (y_ctx s) (y_trace s) (y_tasks s) (y_serving s)).
      split; [constructor|]. split; [reflexivity|]. split. { intros. cbn [SystemModel.sys_step]. rewrite J. reflexivity. }
      split; [exists []; now rewrite app_nil_r|]. split; [|cbn [loses_down loses_up]; rewrite J, Nb; auto]. split; cbn; auto.
    - destruct (nth_error (y_down (a_sys a)) i) as [b|] eqn:Nb; [|discriminate]. injection H as <-.
      destruct (perm_find _ _ _ _ _ Rd Nb) as (j & J & P).
      eexists (SCutDown j n), (MkSys _ _ _ (y_client s) (y_up s) (set_nth j (firstn n b) (y_down s)) (y_ctx s) (y_trace s) (y_tasks s) (y_serving s)).
      split; [constructor|]. split; [reflexivity|]. split. { intros. cbn [SystemModel.sys_step]. rewrite J. reflexivity. }
      split; [exists []; now rewrite app_nil_r|]. split; [|cbn [loses_down loses_up]; rewrite J, Nb; auto]. split; cbn; auto.
      eapply perm_trans; [eapply set_perm, J|]. eapply perm_trans; [constructor; exact P|].
      rewrite app_comm_cons. apply Permutation_app_tail, Permutation_sym. eapply set_perm, Nb.
    - injection H as <-.
      eexists (SEmptyDown 0), (MkSys _ _ _ (y_client s) (y_up s) ([] :: y_down s) (y_ctx s) (y_trace s) (y_tasks s) (y_serving s)).
      split; [constructor|]. split; [reflexivity|]. split; [intros; reflexivity|].
      split; [exists []; now rewrite app_nil_r|]. split; [|auto]. split; cbn; auto.
      rewrite <- app_assoc. cbn [app]. eapply perm_trans; [|apply Permutation_middle]. constructor. rewrite app_assoc, firstn_skipn. exact Rd.
  Qed.

  Lemma carry_ok s p : starts_first p -> a_ok (carry_on s p).
  Proof.
    intros Hp. unfold AsyncModel.carry_on. destruct (settle _ _ can_spawn p (y_trace s)) as [p' tr'] eqn:E.
    destruct (settle_spec _ _ _ _ _ E) as (evs & _ & _ & Q & _ & S & _). specialize (Q Hp).
    destruct p' as [[ctx res]| | |]; try contradiction; cbn; auto.
  Qed.
  Lemma a_step_ok l a a' : a_step l a = Some a' -> a_ok a -> a_ok a'.
  Proof.
    intros H Ha. destruct l as [l|].
    - destruct l; cbn [AsyncModel.a_step] in H;
        try (destruct (SystemModel.sys_step _ _ _ _ _ _ _ _ _ _ _ _ _ _) as [s'|]; [|discriminate]; injection H as <-; exact Ha).
      destruct (a_cur a) eqn:C; [discriminate|]. destruct (y_serving _); [|discriminate]. destruct (nth_error _ _) as [b|]; [|discriminate].
      destruct (take_from_slice b) as [[[hdr body]|]|]; [| |discriminate]; injection H as <-; [|exact Logic.I].
      apply carry_ok, handle_starts.
    - cbn [AsyncModel.a_step] in H. unfold a_ok in Ha. destruct (a_cur a) as [[| | |w h p k]|]; try discriminate H. injection H as <-.
      apply carry_ok, quiet_starts. apply Ha.
  Qed.

  Lemma settle_quiet {R} (p : SProg R) tr : quiet p -> settle _ _ can_spawn p tr = (p, tr).
  Proof. destruct p; cbn; tauto. Qed.
  Lemma no_outcomes_no_frames t : outcomes t = [] -> frames_sent t = [].
  Proof. unfold outcomes, SystemModel.frames_sent. induction t as [|[] t IH]; cbn; auto; discriminate. Qed.
  Lemma frames_app t1 t2 : frames_sent (t1 ++ t2) = frames_sent t1 ++ frames_sent t2. Proof. apply flat_map_app. Qed.
  Lemma tasks_app t1 t2 : tasks_of Val SCtx task (t1 ++ t2) = tasks_of Val SCtx task t1 ++ tasks_of Val SCtx task t2. Proof. apply flat_map_app. Qed.
  Lemma skipn_exact {A} (l1 l2 : list A) : skipn (length l1) (l1 ++ l2) = l2.
  Proof. rewrite skipn_app, skipn_all, Nat.sub_diag. reflexivity. Qed.

  Lemma sim ls : forall a a' cl es, a_run ls a = Some (a', cl, es) -> a_ok a ->
    exists rs, forall s, ARel a s rs ->
      exists ls' s', (forall os qs, sys_run (net_of (outcomes (y_trace s') ++ os)) (can_of (spawns (y_trace s') ++ qs)) ls' s = Some (s', cl, es)) /\
        ARel a' s' [] /\ a_ok a' /\ Forall2 like (system_labels ls) ls' /\ (exists new, y_trace s' = y_trace s ++ new) /\
        (forall os qs, lost_up (sys_step (net_of (outcomes (y_trace s') ++ os)) (can_of (spawns (y_trace s') ++ qs))) ls' s = a_lost a_step loses_up ls a /\
                       lost_down (sys_step (net_of (outcomes (y_trace s') ++ os)) (can_of (spawns (y_trace s') ++ qs))) ls' s = a_lost a_step loses_down ls a).
  Proof.
    induction ls as [|l ls IH]; intros a a' cl es H Ha; cbn [AsyncModel.a_run] in H.
    { injection H as <- <- <-. exists []. intros s Rl. exists [], s. split; [reflexivity|]. split; auto. split; auto. split; [constructor|]. split; [exists []; now rewrite app_nil_r|auto]. }
    destruct (a_step l a) as [a1|] eqn:St; [|discriminate]. pose proof (a_step_ok _ _ _ St Ha) as Ha1.
    destruct (AsyncModel.a_run _ _ _ _ _ _ _ _ _ _ _ _ ls a1) as [[[a2 cl1] es1]|] eqn:R1; [|discriminate].
    destruct (IH _ _ _ _ R1 Ha1) as (rs1 & G).
    assert (Resume : forall l' s1 s rs, like (match l with ASystem l => l | AResume => SServe 0 end) l' -> l <> AResume -> ARel a s rs ->
      client_label _ _ _ l' s = a_client_label _ _ _ l a ->
      (forall os qs, sys_step (net_of (outcomes (y_trace s1) ++ os)) (can_of (spawns (y_trace s1) ++ qs)) l' s = Some s1) ->
      (exists new, y_trace s1 = y_trace s ++ new) -> ARel a1 s1 rs1 ->
      (loses_down l' s = match l with ASystem l => loses_down l (a_sys a) | AResume => [] end /\
       loses_up l' s = match l with ASystem l => loses_up l (a_sys a) | AResume => [] end) ->
      exists ls' s', (forall os qs, sys_run (net_of (outcomes (y_trace s') ++ os)) (can_of (spawns (y_trace s') ++ qs)) ls' s = Some (s', cl, es)) /\
        ARel a' s' [] /\ a_ok a' /\ Forall2 like (system_labels (l :: ls)) ls' /\ (exists new, y_trace s' = y_trace s ++ new) /\
        (forall os qs, lost_up (sys_step (net_of (outcomes (y_trace s') ++ os)) (can_of (spawns (y_trace s') ++ qs))) ls' s = a_lost a_step loses_up (l :: ls) a /\
                       lost_down (sys_step (net_of (outcomes (y_trace s') ++ os)) (can_of (spawns (y_trace s') ++ qs))) ls' s = a_lost a_step loses_down (l :: ls) a)).
    { intros l' s1 s rs Lk Nr Rl Lb Sl (n1 & E1) Rl1 (Ld & Lu). destruct (G _ Rl1) as (ls' & s' & Run & Rl2 & Ok2 & Lk2 & (n2 & E2) & Lo).
      assert (Sl2 : forall os qs, sys_step (net_of (outcomes (y_trace s') ++ os)) (can_of (spawns (y_trace s') ++ qs)) l' s = Some s1).
      { intros os qs. specialize (Sl (outcomes n2 ++ os) (spawns n2 ++ qs)). rewrite !app_assoc, <- outcomes_app, <- spawns_app, <- E2 in Sl. exact Sl. }
      assert (Lst : a2 = a' /\ match a_client_label _ _ _ l a with
        | Some x => match step cfg x (y_client (a_sys a)) with Some (_, e) => cl = x :: cl1 /\ es = e :: es1 | None => False end
        | None => cl = cl1 /\ es = es1 end).
      { destruct (a_client_label _ _ _ l a) as [x|]; [|injection H as <- <- <-; auto].
        destruct (step cfg x (y_client (a_sys a))) as [[c e]|]; [|discriminate]. injection H as <- <- <-. auto. }
      destruct Lst as (-> & Lst). exists (l' :: ls'), s'. split.
      { intros os qs. cbn [SystemModel.sys_run]. rewrite Sl2, Run, Lb. destruct (a_client_label _ _ _ l a) as [x|].
        - rewrite (ar_client _ _ _ Rl). destruct (step cfg x (y_client (a_sys a))) as [[c e]|]; [|contradiction]. destruct Lst as (-> & ->). reflexivity.
        - destruct Lst as (-> & ->). reflexivity. }
      split; auto. split; auto. split. { destruct l as [l|]; [|contradiction]. cbn. constructor; auto. }
      split; [exists (n1 ++ n2); rewrite E2, E1, app_assoc; reflexivity|].
      intros os qs. cbn [lost_up lost_down a_lost]. rewrite Sl2, St, Ld, Lu. destruct (Lo os qs) as [-> ->]. auto. }
    destruct l as [l|].
    - (* a step of the rest, or the beginning of a frame *)
      assert (D : (exists i, l = SServe i) \/ (forall i, l <> SServe i)) by (destruct l; eauto; right; discriminate).
      destruct D as [(i & ->)|Hn].
      + cbn [AsyncModel.a_step] in St. destruct (a_cur a) as [|] eqn:C; [discriminate|]. destruct (y_serving (a_sys a)) eqn:V; [|discriminate].
        destruct (nth_error (y_up (a_sys a)) i) as [b|] eqn:Nb; [|discriminate].
        exists []. intros s Rl. pose proof Rl as [Rc Ru Rt Rx Rv Rd Rr Rs]. unfold ahead in Rx, Rv, Rd, Rr. rewrite C in Rx, Rv, Rd, Rr. cbn [fst snd] in Rx, Rv, Rd, Rr.
        change (frames_sent []) with (@nil (list N)) in Rd. rewrite app_nil_r in Rd, Rr. rewrite V in Rv.
        destruct (take_from_slice b) as [[[hdr body]|]|] eqn:T; [| |discriminate]; injection St as <-.
        * unfold AsyncModel.carry_on in *. cbn [SystemModel.y_trace SystemModel.y_client SystemModel.y_up SystemModel.y_down SystemModel.y_ctx SystemModel.y_tasks SystemModel.y_serving] in *.
          destruct (settle _ _ can_spawn _ (y_trace (a_sys a))) as [p1 tr1] eqn:Se.
          destruct (settle_spec _ _ _ _ _ Se) as (evs & -> & Oe & Q & _ & Sh & Ex). specialize (Q (handle_starts _ _ _)).
          rewrite skipn_exact in *.
          destruct (complete p1 rs1 (y_ctx (a_sys a), TxOk)) as [[ctx' res] new] eqn:Cp.
          destruct (complete_sends p1 (y_ctx (a_sys a), TxOk) rs1) as (C1 & C2 & C3). rewrite Cp in C1, C2, C3. cbn [snd] in C1, C2, C3.
          refine (Resume (SServe i) (MkSys _ _ _ (y_client s) (remove_nth i (y_up s)) (y_down s ++ frames_sent (evs ++ new)) ctx'
            (y_trace s ++ evs ++ new) (y_tasks s ++ tasks_of _ _ task (evs ++ new)) (lives res)) s [] (lk_same _) ltac:(discriminate) Rl eq_refl _ _ _ (conj eq_refl eq_refl)).
          { intros os qs. cbn [SystemModel.sys_step SystemModel.y_trace]. rewrite Rv, Ru, Nb, T, Rx, <- exec_handle.
            rewrite !spawns_app, C2, app_nil_r, <- app_assoc. rewrite (Ex (y_trace s)).
            pose proof (exec_complete (can_of (spawns (y_trace s) ++ spawns evs ++ qs)) p1 (y_ctx (a_sys a), TxOk) Q rs1 (y_trace s ++ evs) os) as Ec.
            rewrite Cp in Ec. cbn [fst snd] in Ec. rewrite !outcomes_app, Oe, app_nil_r in Ec. rewrite !outcomes_app, Oe. cbn [app]. rewrite <- app_assoc. rewrite Ec.
            rewrite <- app_assoc, skipn_exact. reflexivity. }
          { exists (evs ++ new). reflexivity. }
          { rewrite !frames_app, (no_outcomes_no_frames _ Oe), tasks_app, C3, app_nil_r. cbn [app].
            destruct p1 as [[ctx1 res1]| | |w h p k]; try contradiction.
            - cbn [complete] in Cp. injection Cp as <- <- <-. change (frames_sent []) with (@nil (list N)). rewrite !app_nil_r.
              split; cbn -[SystemModel.frames_sent starts]; auto.
              + now rewrite Ru.
              + now rewrite Rt.
              + change (frames_sent []) with (@nil (list N)). rewrite app_nil_r. exact Rd.
              + rewrite app_nil_r. apply Permutation_app_tail. exact Rr.
              + rewrite !starts_app, Rs. reflexivity.
            - split; unfold ahead; cbn [AsyncModel.a_cur AsyncModel.a_sys SystemModel.y_client SystemModel.y_up SystemModel.y_down SystemModel.y_ctx SystemModel.y_trace SystemModel.y_tasks SystemModel.y_serving]; try rewrite Cp; cbn [fst snd]; auto.
              + now rewrite Ru.
              + now rewrite Rt.
              + apply Permutation_app_tail. exact Rd.
              + rewrite app_assoc. apply Permutation_app_tail, Permutation_app_tail. exact Rr.
              + rewrite !starts_app, C1, app_nil_r, Rs. reflexivity. }
        * refine (Resume (SServe i) (MkSys _ _ _ (y_client s) (remove_nth i (y_up s)) (y_down s) (y_ctx s) (y_trace s) (y_tasks s) true) s [] (lk_same _) ltac:(discriminate) Rl eq_refl _ _ _ (conj eq_refl eq_refl)).
          { intros os qs. cbn [SystemModel.sys_step]. rewrite Rv, Ru, Nb, T. reflexivity. }
          { exists []. now rewrite app_nil_r. }
          { split; cbn -[SystemModel.frames_sent starts]; auto.
            - now rewrite Ru.
            - change (frames_sent []) with (@nil (list N)). rewrite app_nil_r. exact Rd.
            - rewrite app_nil_r. exact Rr. }
      + exists rs1. intros s Rl.
        assert (E : exists y, sys_step net can_spawn l (a_sys a) = Some y /\ a1 = MkASys _ _ _ y (a_cur a)).
        { destruct l; cbn [AsyncModel.a_step] in St; try (destruct (SystemModel.sys_step _ _ _ _ _ _ _ _ _ _ _ _ _ _) as [y|]; [|discriminate]; injection St as <-; eauto).
          destruct (Hn i eq_refl). }
        destruct E as (y & Sy & ->). destruct (sim_other _ _ _ _ _ Hn Rl Sy) as (l' & s1 & Lk & Lb & S1 & E1 & Rl1 & Lo).
        refine (Resume l' s1 s rs1 Lk ltac:(discriminate) Rl Lb _ E1 Rl1 Lo). intros os qs. apply S1.
    - (* the server carries on *)
      pose proof St as St0. cbn [AsyncModel.a_step] in St. unfold a_ok in Ha. destruct (a_cur a) as [[| | |w h p k]|] eqn:C; try discriminate St.
      destruct Ha as [Q _]. cbn [quiet] in Q. set (r := net (y_trace (a_sys a)) h p) in *. injection St as <-.
      exists (r :: rs1). intros s Rl. destruct Rl as [Rc Ru Rt Rx Rv Rd Rr Rs]. unfold ahead in Rx, Rv, Rd, Rr. rewrite C in Rx, Rv, Rd, Rr. cbn [complete hd tl] in Rx, Rv, Rd, Rr.
      destruct (complete (k r) rs1 (y_ctx (a_sys a), TxOk)) as [[ctx' res] new] eqn:Cp. cbn [fst snd] in Rx, Rv, Rd, Rr.
      cbn [a_client_label] in H. injection H as <- <- <-.
      assert (Rl1 : ARel (carry_on (MkSys _ _ _ (y_client (a_sys a)) (y_up (a_sys a)) (y_down (a_sys a) ++ [rpc_to_bytes (MkFrame h (enc p))])
        (y_ctx (a_sys a)) (y_trace (a_sys a) ++ [EvSend w h p r]) (y_tasks (a_sys a)) (y_serving (a_sys a))) (k r)) s rs1).
      { unfold AsyncModel.carry_on. cbn [SystemModel.y_trace SystemModel.y_client SystemModel.y_up SystemModel.y_down SystemModel.y_ctx SystemModel.y_tasks SystemModel.y_serving].
        rewrite (settle_quiet _ _ (Q r)), skipn_all. change (tasks_of Val SCtx task []) with (@nil (HProg Val unit)). rewrite app_nil_r.
        change (frames_sent (EvSend w h p r :: new)) with ([rpc_to_bytes (MkFrame h (enc p))] ++ frames_sent new) in Rd.
        change (EvSend w h p r :: new) with ([EvSend w h p r] ++ new) in Rr. rewrite app_assoc in Rd, Rr.
        specialize (Q r). destruct (k r) as [[ctx1 res1]| | |w1 h1 p1 k1] eqn:Kr; try contradiction.
        - cbn [complete] in Cp. injection Cp as <- <- <-. split; cbn -[SystemModel.frames_sent starts]; auto.
          rewrite starts_app, app_nil_r. exact Rs.
        - split; unfold ahead; cbn [AsyncModel.a_cur AsyncModel.a_sys SystemModel.y_client SystemModel.y_up SystemModel.y_down SystemModel.y_ctx SystemModel.y_trace SystemModel.y_tasks SystemModel.y_serving]; try rewrite Cp; cbn [fst snd]; auto.
          rewrite starts_app. change (starts [EvSend w h p r]) with (@nil (Event Val SCtx)). rewrite app_nil_r. exact Rs. }
      destruct (G _ Rl1) as (ls' & s' & Run & Rl2 & Ok2 & Lk2 & E2 & Lo). exists ls', s'. do 5 (split; [auto; fail|]). cbn [a_lost app]. rewrite St0. exact Lo.
  Qed.

  (** *** What is on the way to the client *)
  Lemma a_ind (P : list ALabel -> ASys -> list Label -> list (list Ev) -> Prop) a0 :
    P [] a0 [] [] ->
    (forall ls a cl es l a', a_run ls a0 = Some (a, cl, es) -> P ls a cl es -> a_step l a = Some a' ->
       match a_client_label _ _ _ l a with
       | Some x => forall c e, step cfg x (y_client (a_sys a)) = Some (c, e) -> P (ls ++ [l]) a' (cl ++ [x]) (es ++ [e])
       | None => P (ls ++ [l]) a' cl es
       end) ->
    forall ls a cl es, a_run ls a0 = Some (a, cl, es) -> P ls a cl es.
  Proof.
    intros H0 HS.
    assert (Last : forall ls l a2 cl2 es2 a1, a_run (ls ++ [l]) a1 = Some (a2, cl2, es2) ->
      exists a cl es, a_run ls a1 = Some (a, cl, es) /\ a_step l a = Some a2 /\
        match a_client_label _ _ _ l a with
        | Some x => exists c e, step cfg x (y_client (a_sys a)) = Some (c, e) /\ cl2 = cl ++ [x] /\ es2 = es ++ [e]
        | None => cl2 = cl /\ es2 = es
        end).
    { induction ls as [|l0 ls IH]; intros l a2 cl2 es2 a1 H; cbn [app AsyncModel.a_run] in H.
      - destruct (a_step l a1) as [a3|] eqn:E; [|discriminate]. exists a1, [], []. split; [reflexivity|].
        destruct (a_client_label _ _ _ l a1) as [x|] eqn:X.
        + destruct (step cfg x (y_client (a_sys a1))) as [[c e]|] eqn:St; [|discriminate]. injection H as <- <- <-.
          split; auto. exists c, e. auto.
        + injection H as <- <- <-. auto.
      - destruct (a_step l0 a1) as [a3|] eqn:E; [|discriminate].
        destruct (AsyncModel.a_run _ _ _ _ _ _ _ _ _ _ _ _ (ls ++ [l]) a3) as [[[a4 cl4] es4]|] eqn:R; [|discriminate].
        destruct (IH _ _ _ _ _ R) as (a & cl & es & R1 & St & M).
        destruct (a_client_label _ _ _ l0 a1) as [x|] eqn:X.
        + destruct (step cfg x (y_client (a_sys a1))) as [[c e]|] eqn:Sx; [|discriminate]. injection H as <- <- <-.
          exists a, (x :: cl), (e :: es). split. { cbn [AsyncModel.a_run]. rewrite E, R1, X, Sx. reflexivity. }
          split; auto. destruct (a_client_label _ _ _ l a) as [y|].
          * destruct M as (c' & e' & St' & -> & ->). exists c', e'. auto.
          * destruct M as (-> & ->). auto.
        + injection H as <- <- <-. exists a, cl, es. split; [|auto].
          cbn [AsyncModel.a_run]. rewrite E, R1, X. reflexivity. }
    intros ls. induction ls as [|l ls IH] using rev_ind; intros a cl es H.
    - cbn in H. injection H as <- <- <-. auto.
    - destruct (Last _ _ _ _ _ _ H) as (a1 & cl1 & es1 & R & St & M).
      pose proof (HS _ _ _ _ _ _ R (IH _ _ _ R) St) as G. destruct (a_client_label _ _ _ l a1) as [x|] eqn:X.
      + destruct M as (c & e & Sx & -> & ->). eapply G; eauto.
      + destruct M as (-> & ->). auto.
  Qed.

  Lemma system_labels_snoc ls l : system_labels (ls ++ [l]) = system_labels ls ++ match l with ASystem l => [l] | AResume => [] end.
  Proof. unfold system_labels. rewrite flat_map_app. cbn. now rewrite app_nil_r. Qed.

  Lemma carry_flow ls s p xs : flow enc ls (y_trace s) (xs ++ y_down s) ->
    flow enc ls (y_trace (a_sys (carry_on s p))) (xs ++ y_down (a_sys (carry_on s p))).
  Proof.
    intros H. unfold AsyncModel.carry_on. destruct (settle _ _ can_spawn p (y_trace s)) as [p' tr'] eqn:E.
    destruct (settle_spec _ _ _ _ _ E) as (evs & -> & O & _).
    apply (flow_sent _ _ _ evs) in H. rewrite (no_outcomes_no_frames _ O), app_nil_r in H.
    destruct p' as [[ctx res]| | |]; exact H.
  Qed.

  Lemma a_flow ctx0 ls a cl es : a_run ls (asys_new _ _ _ bg ctx0) = Some (a, cl, es) ->
    flow enc (system_labels ls) (y_trace (a_sys a)) (recvd cl ++ y_down (a_sys a)).
  Proof.
    revert ls a cl es. apply (a_ind (fun ls a cl es => flow enc (system_labels ls) (y_trace (a_sys a)) (recvd cl ++ y_down (a_sys a)))).
    { exists []. repeat split; constructor. }
    intros ls a cl es l a' _ IH St. rewrite system_labels_snoc. destruct l as [l|].
    2:{ cbn [a_client_label]. rewrite app_nil_r. cbn [AsyncModel.a_step] in St. destruct (a_cur a) as [[| | |w h p k]|]; try discriminate St. injection St as <-.
        apply carry_flow. cbn [SystemModel.y_trace SystemModel.y_down].
        apply (flow_sent _ _ _ [EvSend w h p (net (y_trace (a_sys a)) h p)]) in IH. rewrite <- app_assoc in IH. exact IH. }
    apply (flow_step _ _ l) in IH. cbn [a_client_label].
    destruct l as [l|i|i|i|i|i|i n|i]; cbn [AsyncModel.a_step client_label] in St |- *.
    - destruct (SystemModel.sys_step _ _ _ _ _ _ _ _ _ _ _ _ _ _) as [s'|] eqn:Hs; [|discriminate]. injection St as <-. cbn [AsyncModel.a_sys].
      destruct (step_client std net can_spawn kkind spawn_ctxt enc task cfg d _ _ _ Hs) as (e & Nr & _ & ->). cbn [SystemModel.y_trace SystemModel.y_down].
      intros c e' _. rewrite recvd_snoc. destruct l; try (rewrite app_nil_r; exact IH). destruct (Nr _ eq_refl).
    - destruct (SystemModel.sys_step _ _ _ _ _ _ _ _ _ _ _ _ _ _) as [s'|] eqn:Hs; [|discriminate]. injection St as <-. cbn [AsyncModel.a_sys].
      cbn [SystemModel.sys_step] in Hs. destruct (nth_error (y_down (a_sys a)) i) as [b|] eqn:Hn; [|discriminate]. cbn [option_map].
      destruct (step cfg (LRecv b) _) as [[c e]|]; [|discriminate]. injection Hs as <-. cbn [SystemModel.y_trace SystemModel.y_down]. intros c' e' _.
      rewrite recvd_snoc. destruct IH as (sent & P & O & T). destruct (thin_move _ _ _ _ _ _ Hn T) as (sent' & P' & T' & O').
      exists sent'. split; [eapply perm_trans; eauto|]. split; auto. intros D. rewrite O'; auto. apply (D i). apply in_app_iff. right. left. auto.
    - destruct (a_cur a); [discriminate|]. destruct (y_serving _); [|discriminate]. destruct (nth_error _ _) as [b|]; [|discriminate].
      destruct (take_from_slice b) as [[[hdr body]|]|]; [| |discriminate]; injection St as <-; [|exact IH].
      apply carry_flow. exact IH.
    - destruct (SystemModel.sys_step _ _ _ _ _ _ _ _ _ _ _ _ _ _) as [s'|] eqn:Hs; [|discriminate]. injection St as <-. cbn [AsyncModel.a_sys].
      cbn [SystemModel.sys_step] in Hs. destruct (nth_error (y_tasks (a_sys a)) i) as [[|key seq p k]|]; try discriminate.
      unfold send_keyed, tx_send in Hs. rewrite skipn_exact in Hs. injection Hs as <-. cbn [SystemModel.y_trace SystemModel.y_down].
      eapply flow_sent in IH. rewrite app_assoc. exact IH.
    - destruct (SystemModel.sys_step _ _ _ _ _ _ _ _ _ _ _ _ _ _) as [s'|] eqn:Hs; [|discriminate]. injection St as <-. cbn [AsyncModel.a_sys].
      cbn [SystemModel.sys_step] in Hs. destruct (nth_error _ _); [|discriminate]. injection Hs as <-. exact IH.
    - destruct (SystemModel.sys_step _ _ _ _ _ _ _ _ _ _ _ _ _ _) as [s'|] eqn:Hs; [|discriminate]. injection St as <-. cbn [AsyncModel.a_sys].
      cbn [SystemModel.sys_step] in Hs. destruct (nth_error _ _); [|discriminate]. injection Hs as <-. cbn [SystemModel.y_trace SystemModel.y_down].
      destruct IH as (sent & P & O & T). exists sent. split; auto. split; auto.
      destruct (thin_split _ _ _ _ T) as (s1 & s2 & -> & T1 & T2). apply thin_app; auto. apply thin_remove. auto.
    - destruct (SystemModel.sys_step _ _ _ _ _ _ _ _ _ _ _ _ _ _) as [s'|] eqn:Hs; [|discriminate]. injection St as <-. cbn [AsyncModel.a_sys].
      cbn [SystemModel.sys_step] in Hs. destruct (nth_error (y_down (a_sys a)) i) as [b|] eqn:Hn; [|discriminate]. injection Hs as <-. cbn [SystemModel.y_trace SystemModel.y_down].
      destruct IH as (sent & P & O & T). exists sent. split; auto. split; auto.
      destruct (thin_split _ _ _ _ T) as (s1 & s2 & -> & T1 & T2). apply thin_app; auto.
      eapply thin_set; [intros x c Hx; exact Hx| | |exact T2].
      + intros x c Hx [(y & ->) U]. rewrite Hn in Hx. injection Hx as <-. split.
        * exists (skipn n b ++ y). rewrite app_assoc, firstn_skipn. reflexivity.
        * intros U'. destruct (U' i n). apply in_app_iff. right. left. reflexivity.
      + rewrite Hn. intros [= ->]. apply firstn_nil.
    - cbn [SystemModel.sys_step] in St. injection St as <-. cbn [AsyncModel.a_sys SystemModel.y_trace SystemModel.y_down].
      destruct IH as (sent & P & O & T). exists sent. split; auto. split; auto. rewrite app_assoc. apply thin_insert_empty. rewrite <- app_assoc, firstn_skipn. auto.
  Qed.

  (** *** The steps of the program end *)
  Fixpoint sdepth {R} (p : SProg R) : nat :=
    match p with
    | SpSend _ _ _ k => S (Nat.max (sdepth (k TxOk)) (Nat.max (sdepth (k (TxErr TxConnectionClosed)))
                         (Nat.max (sdepth (k (TxErr TxOther))) (sdepth (k (TxErr TxTimeout))))))
    | _ => 0
    end.
  Lemma sdepth_lt R w h p (k : TxRes -> SProg R) r : sdepth (k r) < sdepth (SpSend w h p k).
  Proof. cbn [sdepth]. destruct r as [|[]]; lia. Qed.
  (** The state with what remains to be done as one more task. *)
  Fixpoint dummy (n : nat) : HProg Val unit :=
    match n with O => HRet tt | S n => HSend (K8 0 0 0 0 0 0 0 0) (Seq1 0) (PPing 0) (fun _ => dummy n) end.
  Lemma dummy_depth n : hdepth (dummy n) = n.
  Proof. induction n; cbn; auto. rewrite !IHn. lia. Qed.
  Definition as_task (a : ASys) : Sys :=
    let s := a_sys a in
    MkSys _ _ _ (y_client s) (y_up s) (y_down s) (y_ctx s) (y_trace s)
      (dummy (match a_cur a with Some p => sdepth p | None => 0 end) :: y_tasks s) (y_serving s).

  Definition a_by_itself (a' a : ASys) : Prop := a_ok a /\ exists l, a_own_step l = true /\ a_step l a = Some a'.
  Lemma sum_cons {A} (g : A -> nat) x l : sum g (x :: l) = g x + sum g l. Proof. reflexivity. Qed.
  Lemma a_own_less a a' : a_by_itself a' a -> less (as_task a') (as_task a).
  Proof.
    intros (Ha & l & Ho & St). destruct l as [l|].
    - assert (D : (exists i, l = SServe i) \/ (forall i, l <> SServe i)) by (destruct l; eauto; right; discriminate).
      destruct D as [(i & ->)|Hn].
      + cbn [AsyncModel.a_step] in St. destruct (a_cur a) as [|] eqn:C; [discriminate|]. destruct (y_serving (a_sys a)); [|discriminate].
        destruct (nth_error (y_up (a_sys a)) i) as [b|] eqn:Nb; [|discriminate].
        pose proof (Permutation_length (remove_nth_perm _ _ _ Nb)) as P. cbn in P.
        assert (E : y_client (a_sys a') = y_client (a_sys a) /\ y_up (a_sys a') = remove_nth i (y_up (a_sys a))).
        { destruct (take_from_slice b) as [[[hdr body]|]|]; [| |discriminate]; injection St as <-; [|auto].
          unfold AsyncModel.carry_on. destruct (settle _ _ _ _ _) as [[[ctx res]| | |] tr]; auto. }
        destruct E as (E1 & E2). left. unfold m1, as_task. cbn [SystemModel.y_client SystemModel.y_up]. rewrite E1, E2. lia.
      + assert (E : exists y, sys_step net can_spawn l (a_sys a) = Some y /\ a' = MkASys _ _ _ y (a_cur a)).
        { destruct l; cbn [AsyncModel.a_step] in St; try (destruct (SystemModel.sys_step _ _ _ _ _ _ _ _ _ _ _ _ _ _) as [y|]; [|discriminate]; injection St as <-; eauto).
          destruct (Hn i eq_refl). }
        destruct E as (y & Sy & ->). pose proof (own_less std net can_spawn kkind spawn_ctxt enc task cfg d _ _ _ Ho Sy) as L.
        unfold less, m1, m2, m3, as_task in *. cbn [AsyncModel.a_sys AsyncModel.a_cur SystemModel.y_client SystemModel.y_up SystemModel.y_tasks SystemModel.y_down] in *.
        rewrite !sum_cons. lia.
    - cbn [AsyncModel.a_step] in St. unfold a_ok in Ha. destruct (a_cur a) as [[| | |w h p k]|] eqn:C; try discriminate St.
      destruct Ha as [Q _]. cbn [quiet] in Q. set (r := net (y_trace (a_sys a)) h p) in *. injection St as <-.
      unfold AsyncModel.carry_on. cbn [SystemModel.y_trace SystemModel.y_client SystemModel.y_up SystemModel.y_down SystemModel.y_ctx SystemModel.y_tasks SystemModel.y_serving].
      rewrite (settle_quiet _ _ (Q r)), skipn_all. change (tasks_of Val SCtx task []) with (@nil (HProg Val unit)). rewrite app_nil_r.
      pose proof (sdepth_lt _ w h p k r) as L. right.
      assert (G : forall y (c : option Code), y_client y = y_client (a_sys a) -> y_up y = y_up (a_sys a) -> y_tasks y = y_tasks (a_sys a) ->
        match c with Some p => sdepth p | None => 0 end < sdepth (SpSend w h p k) ->
        m1 (as_task (MkASys _ _ _ y c)) = m1 (as_task a) /\
        (m2 (as_task (MkASys _ _ _ y c)) < m2 (as_task a) \/ m2 (as_task (MkASys _ _ _ y c)) = m2 (as_task a) /\ m3 (as_task (MkASys _ _ _ y c)) < m3 (as_task a))).
      { intros y c E1 E2 E3 L2. unfold m1, m2, as_task. rewrite C. cbn [AsyncModel.a_sys AsyncModel.a_cur SystemModel.y_client SystemModel.y_up SystemModel.y_tasks].
        rewrite E1, E2, E3. split; [reflexivity|]. left. rewrite !sum_cons, !dummy_depth. lia. }
      destruct (k r) as [[ctx res]| | |] eqn:Kr; apply G; auto; cbn [sdepth] in L |- *; lia.
  Qed.
  Lemma a_own_acc a : Acc a_by_itself a.
  Proof.
    enough (G : forall s, Acc less s -> forall a, as_task a = s -> Acc a_by_itself a) by exact (G _ (less_wf _) a eq_refl).
    intros s A. induction A as [s _ IH]. intros a0 <-. constructor. intros a1 H. eapply IH; [eapply a_own_less; exact H|reflexivity].
  Qed.

  (** *** Rest *)
  Lemma rest_rest a s net' can' : ARel a s [] -> a_ok a -> (forall l, a_own_step l = true -> a_step l a = None) ->
    a_cur a = None /\ forall l, own_step l = true -> sys_step net' can' l s = None.
  Proof.
    intros [Rc Ru Rt Rx Rv Rd Rr Rs] Ha H.
    assert (C : a_cur a = None).
    { specialize (H AResume eq_refl). cbn [AsyncModel.a_step] in H. unfold a_ok in Ha. destruct (a_cur a) as [[| | |]|]; try tauto; discriminate H. }
    split; auto. unfold ahead in Rx, Rv, Rd, Rr. rewrite C in Rx, Rv, Rd, Rr. cbn [fst snd] in Rx, Rv, Rd, Rr.
    change (frames_sent []) with (@nil (list N)) in Rd. rewrite app_nil_r in Rd.
    intros l Hl. destruct l; try discriminate Hl; cbn [SystemModel.sys_step].
    - specialize (H (ASystem (SClient l)) Hl). cbn [AsyncModel.a_step SystemModel.sys_step] in H. rewrite Rc.
      destruct l; try reflexivity; destruct (step cfg _ _) as [[c e]|]; try discriminate H; reflexivity.
    - destruct (nth_error (y_down s) i) as [b|] eqn:Nb; [|reflexivity].
      assert (I : In b (y_down (a_sys a))). { eapply Permutation_in; [exact Rd|]. eapply nth_error_In; eauto. }
      apply In_nth_error in I as (j & J). specialize (H (ASystem (SRecv j)) eq_refl). cbn [AsyncModel.a_step SystemModel.sys_step] in H.
      rewrite J in H. rewrite Rc. destruct (step cfg (LRecv b) _) as [[c e]|]; [discriminate H|reflexivity].
    - specialize (H (ASystem (SServe i)) eq_refl). cbn [AsyncModel.a_step] in H. rewrite C in H. rewrite Rv, Ru.
      destruct (y_serving (a_sys a)); [|reflexivity]. destruct (nth_error _ _) as [b|]; [|reflexivity].
      destruct (take_from_slice b) as [[[hdr body]|]|]; [| |reflexivity]; discriminate H.
    - specialize (H (ASystem (STask i)) eq_refl). cbn [AsyncModel.a_step SystemModel.sys_step] in H. rewrite Rt.
      destruct (nth_error (y_tasks (a_sys a)) i) as [[|key seq p k]|]; try reflexivity. discriminate H.
  Qed.
End P.
