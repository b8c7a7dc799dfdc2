(** Lemmas about the system over bounded channels. *)
From Coq Require Import NArith List Bool Arith Lia Permutation.
From Verif Require Import KeyModel HeaderModel KeySpec HeaderSpec KeyProof HeaderProof MinKeyModel SchemaModel MacroModel PostcardModel DispatchModel DispatchSpec SubModel SubProof
  ClientModel ClientSpec ClientProof ClientHist ClientMore SystemModel SystemSpec SystemProof LiveSpec LiveProof AsyncModel AsyncSpec AsyncProof ChanModel ChanSysModel ChanSysSpec.
Import ListNotations.

Section P.
  Context {Val Ctx SCtx : Type}.
  Variable std : StdKeys.
  Variable can_spawn : Trace Val SCtx -> nat -> bool.
  Variable kkind : VarKeyKind.
  Variable spawn_ctxt : Ctx -> Ctx * SCtx.
  Variable d : Dispatcher Val Ctx.
  Variable enc : Payload Val -> list N.
  Variable task : nat -> SCtx -> VarHeader -> Val -> HProg Val unit.
  Variable cfg : Config.
  Variable cap_up cap_down buf : nat.

  Notation c_step := (c_step Val Ctx SCtx std can_spawn kkind spawn_ctxt d enc task cfg cap_up cap_down buf).
  Notation c_run := (c_run Val Ctx SCtx std can_spawn kkind spawn_ctxt d enc task cfg cap_up cap_down buf).
  Notation a_step n := (a_step Val Ctx SCtx std n can_spawn kkind spawn_ctxt d enc task cfg).
  Notation a_run n := (a_run Val Ctx SCtx std n can_spawn kkind spawn_ctxt d enc task cfg).
  Notation sys_step n := (sys_step Val Ctx SCtx std n can_spawn kkind spawn_ctxt d enc task cfg).
  Notation client_step := (client_step Val Ctx SCtx std can_spawn kkind spawn_ctxt d enc task cfg).
  Notation a_sys := (a_sys Val Ctx SCtx).
  Notation a_cur := (a_cur Val Ctx SCtx).
  Notation y_client := (y_client Val Ctx SCtx). Notation y_up := (y_up Val Ctx SCtx). Notation y_down := (y_down Val Ctx SCtx).
  Notation y_trace := (y_trace Val Ctx SCtx). Notation y_tasks := (y_tasks Val Ctx SCtx). Notation y_serving := (y_serving Val Ctx SCtx).
  Notation cs_a := (cs_a Val Ctx SCtx).
  Notation CSys := (CSys Val Ctx SCtx).
  Notation ASys := (ASys Val Ctx SCtx).
  Notation carry_on := (carry_on Val Ctx SCtx can_spawn task).
  Notation frame h p := (rpc_to_bytes (MkFrame h (enc p))).

  (** *** Runs of the system of AsyncModel.v *)
  Lemma a_then net ls1 : forall ls2 a a1 cl1 es1 a2 cl2 es2,
    a_run net ls1 a = Some (a1, cl1, es1) -> a_run net ls2 a1 = Some (a2, cl2, es2) ->
    a_run net (ls1 ++ ls2) a = Some (a2, cl1 ++ cl2, es1 ++ es2) /\
    forall loses, a_lost (a_step net) loses (ls1 ++ ls2) a = a_lost (a_step net) loses ls1 a ++ a_lost (a_step net) loses ls2 a1.
  Proof.
    induction ls1 as [|l ls1 IH]; intros ls2 a a1 cl1 es1 a2 cl2 es2 H1 H2; cbn [app AsyncModel.a_run a_lost] in *.
    - injection H1 as <- <- <-. auto.
    - destruct (a_step net l a) as [a3|]; [|discriminate].
      destruct (a_run net ls1 a3) as [[[a4 cl4] es4]|] eqn:R; [|discriminate].
      assert (E : a4 = a1) by (destruct (a_client_label _ _ _ l a) as [x|]; [destruct (step cfg x _) as [[c e]|]|]; congruence).
      subst a4. destruct (IH _ _ _ _ _ _ _ _ R H2) as [I1 I2]. rewrite I1. split.
      + destruct (a_client_label _ _ _ l a) as [x|].
        * destruct (step cfg x _) as [[c e]|] eqn:St; [|discriminate]. injection H1 as <- <-. reflexivity.
        * injection H1 as <- <-. reflexivity.
      + intros loses. rewrite I2, app_assoc. reflexivity.
  Qed.
  Lemma a_client_run net ls : forall a a' cl es, a_run net ls a = Some (a', cl, es) -> run cfg cl (y_client (a_sys a)) = Some (y_client (a_sys a'), es).
  Proof.
    assert (Ck : forall s p, y_client (a_sys (carry_on s p)) = y_client s).
    { intros s p. unfold AsyncModel.carry_on. destruct (settle _ _ _ _ _) as [[[ctx res]| | |] tr]; reflexivity. }
    induction ls as [|l ls IH]; intros a a' cl es H; cbn [AsyncModel.a_run] in H; [injection H as <- <- <-; reflexivity|].
    destruct (a_step net l a) as [a1|] eqn:St; [|discriminate].
    destruct (a_run net ls a1) as [[[a2 cl1] es1]|] eqn:R; [|discriminate]. apply IH in R.
    assert (E : match a_client_label _ _ _ l a with
      | Some x => forall c e, step cfg x (y_client (a_sys a)) = Some (c, e) -> y_client (a_sys a1) = c
      | None => y_client (a_sys a1) = y_client (a_sys a) end).
    { destruct l as [l|].
      - assert (D : (exists i, l = SServe i) \/ (forall i, l <> SServe i)) by (destruct l; eauto; right; discriminate). destruct D as [(i & ->)|Hn].
        + cbn [AsyncModel.a_step a_client_label client_label] in *. destruct (a_cur a); [discriminate|]. destruct (y_serving _); [|discriminate].
          destruct (nth_error _ _); [|discriminate]. destruct (take_from_slice _) as [[[hd bd]|]|]; try discriminate; injection St as <-; [rewrite Ck|]; reflexivity.
        + destruct (sys_step net l (a_sys a)) as [y|] eqn:Sy.
          2: { destruct l; cbn [AsyncModel.a_step] in St; try rewrite Sy in St; try discriminate. destruct (Hn _ eq_refl). }
          assert (a1 = MkASys _ _ _ y (a_cur a)) as ->.
          { destruct l; cbn [AsyncModel.a_step] in St; try rewrite Sy in St; try (injection St as <-; reflexivity). destruct (Hn _ eq_refl). }
          clear St. cbn [a_client_label AsyncModel.a_sys].
          destruct l as [l|i|i|i|i|i|i n|i]; cbn [SystemModel.sys_step client_label] in *.
          * destruct l; try discriminate; destruct (step cfg _ _) as [[c e]|]; try discriminate; injection Sy as <-; intros ? ? [= <- <-]; reflexivity.
          * destruct (nth_error _ _); [|discriminate]. cbn [option_map]. destruct (step cfg _ _) as [[c e]|]; [|discriminate]. injection Sy as <-. intros ? ? [= <- <-]; reflexivity.
          * destruct (Hn _ eq_refl).
          * destruct (nth_error _ _) as [[|key seq p k]|]; try discriminate. destruct (send_keyed _ _ _ _ _ _ _ _ _). injection Sy as <-. reflexivity.
          * destruct (nth_error _ _); [|discriminate]. injection Sy as <-. reflexivity.
          * destruct (nth_error _ _); [|discriminate]. injection Sy as <-. reflexivity.
          * destruct (nth_error _ _); [|discriminate]. injection Sy as <-. reflexivity.
          * injection Sy as <-. reflexivity.
      - cbn [AsyncModel.a_step a_client_label] in *. destruct (a_cur a) as [[| | |w h p k]|]; try discriminate. injection St as <-. rewrite Ck. reflexivity. }
    destruct (a_client_label _ _ _ l a) as [x|].
    - destruct (step cfg x (y_client (a_sys a))) as [[c e]|] eqn:Sx; [|discriminate]. injection H as <- <- <-. cbn [run]. rewrite Sx. rewrite (E _ _ eq_refl) in R. rewrite R. reflexivity.
    - injection H as <- <- <-. rewrite E in R. exact R.
  Qed.

  (** Only a transmission asks the network, and only for its own result. *)
  Lemma step_const r l a a' : a_step (fun _ _ _ => r) l a = Some a' ->
    exists new, y_trace (a_sys a') = y_trace (a_sys a) ++ new /\
      (forall w h p r', In (EvSend w h p r') new -> r' = r /\ (l = AResume \/ exists i, l = ASystem (STask i))) /\
      (l = AResume \/ (exists i, l = ASystem (STask i)) -> exists w h p, y_down (a_sys a') = y_down (a_sys a) ++ [frame h p] /\ In (EvSend w h p r) new) /\
      forall os, a_step (net_of (outcomes (y_trace (a_sys a')) ++ os)) l a = Some a'.
  Proof.
    assert (Ck : forall s p, exists evs, y_trace (a_sys (carry_on s p)) = y_trace s ++ evs /\ outcomes evs = [] /\ y_down (a_sys (carry_on s p)) = y_down s).
    { intros s p. unfold AsyncModel.carry_on. destruct (settle _ _ _ p (y_trace s)) as [p' tr] eqn:E.
      destruct (settle_spec task can_spawn _ _ _ _ E) as (evs & -> & O & _). exists evs. split; [|split; [exact O|]]; destruct p' as [[ctx res]| | |]; reflexivity. }
    assert (No : forall (evs : Trace Val SCtx) w h p r', outcomes evs = [] -> In (EvSend w h p r') evs -> False).
    { intros evs w h p r' O Hi. assert (X : In r' (outcomes evs)) by (apply in_flat_map; exists (EvSend w h p r'); split; [exact Hi|left; reflexivity]). rewrite O in X. destruct X. }
    destruct l as [l|].
    - assert (D : (exists i, l = SServe i) \/ (forall i, l <> SServe i)) by (destruct l; eauto; right; discriminate). destruct D as [(i & ->)|Hn].
      + cbn [AsyncModel.a_step]. destruct (a_cur a); [discriminate|]. destruct (y_serving _); [|discriminate].
        destruct (nth_error _ _); [|discriminate]. destruct (take_from_slice _) as [[[hd bd]|]|]; try discriminate; intros [= <-].
        * match goal with |- context [carry_on ?s ?p] => destruct (Ck s p) as (evs & E & O & _) end. cbn [SystemModel.y_trace] in E. exists evs. split; [exact E|].
          split; [intros w h p r' Hi; destruct (No _ _ _ _ _ O Hi)|]. split; [intros [X|(j & X)]; discriminate|auto].
        * exists []. cbn [AsyncModel.a_sys SystemModel.y_trace]. rewrite app_nil_r. split; [reflexivity|]. split; [intros ? ? ? ? []|]. split; [intros [X|(j & X)]; discriminate|auto].
      + intros St.
        assert (A : forall net, a_step net (ASystem l) a = match sys_step net l (a_sys a) with Some s' => Some (MkASys _ _ _ s' (a_cur a)) | None => None end).
        { intros net. destruct l; try reflexivity. destruct (Hn _ eq_refl). }
        rewrite A in St. destruct (sys_step (fun _ _ _ => r) l (a_sys a)) as [y|] eqn:Sy; [|discriminate]. injection St as <-. cbn [AsyncModel.a_sys].
        assert (Dt : (exists i, l = STask i) \/ (forall i, l <> STask i)) by (destruct l; eauto; right; discriminate). destruct Dt as [(i & ->)|Ht].
        * cbn [SystemModel.sys_step] in Sy. destruct (nth_error (y_tasks (a_sys a)) i) as [[|key seq p k]|] eqn:Nt; try discriminate.
          unfold send_keyed, tx_send in Sy. rewrite skipn_exact in Sy. set (h := MkHeader (shrink_to (VKey8 key) kkind) seq) in *. injection Sy as <-.
          cbn [SystemModel.y_trace SystemModel.y_down]. exists [EvSend ByHandler h p r]. split; [reflexivity|].
          split; [intros w h' p' r' [X|[]]; injection X as <- <- <- <-; eauto|]. split; [intros _; exists ByHandler, h, p; split; [reflexivity|left; reflexivity]|].
          intros os. rewrite A. cbn [SystemModel.sys_step]. rewrite Nt. unfold send_keyed, tx_send. fold h.
          rewrite outcomes_app, <- app_assoc. cbn [outcomes flat_map app]. fold (outcomes (y_trace (a_sys a))). rewrite (net_at enc), skipn_exact. reflexivity.
        * assert (E : y_trace y = y_trace (a_sys a) /\ forall net, sys_step net l (a_sys a) = Some y).
          { destruct l as [l|i|i|i|i|i|i n|i]; cbn [SystemModel.sys_step] in *.
            - destruct l; try discriminate; destruct (step cfg _ _) as [[c e]|]; try discriminate; injection Sy as <-; auto.
            - destruct (nth_error _ _); [|discriminate]. destruct (step cfg _ _) as [[c e]|]; [|discriminate]. injection Sy as <-; auto.
            - destruct (Hn _ eq_refl).
            - destruct (Ht _ eq_refl).
            - destruct (nth_error _ _); [|discriminate]. injection Sy as <-. auto.
            - destruct (nth_error _ _); [|discriminate]. injection Sy as <-. auto.
            - destruct (nth_error _ _); [|discriminate]. injection Sy as <-. auto.
            - injection Sy as <-. auto. }
          destruct E as [E1 E2]. exists []. rewrite app_nil_r. split; [exact E1|]. split; [intros ? ? ? ? []|].
          split; [intros [X|(j & X)]; [discriminate|injection X as ->; destruct (Ht _ eq_refl)]|]. intros os. rewrite A, E2. reflexivity.
    - cbn [AsyncModel.a_step]. destruct (a_cur a) as [[| | |w h p k]|]; try discriminate. intros [= <-].
      match goal with |- context [carry_on ?s ?p] => destruct (Ck s p) as (evs & E & O & Ed) end. cbn [SystemModel.y_trace SystemModel.y_down] in E, Ed.
      rewrite <- app_assoc in E. exists ([EvSend w h p r] ++ evs). split; [exact E|].
      split; [intros w' h' p' r' [X|X]; [injection X as <- <- <- <-; auto|destruct (No _ _ _ _ _ O X)]|].
      split; [intros _; exists w, h, p; split; [exact Ed|left; reflexivity]|]. intros os. rewrite E, !outcomes_app, O, app_nil_r.
      rewrite <- app_assoc. cbn [outcomes flat_map app]. fold (outcomes (y_trace (a_sys a))). rewrite (net_at enc). reflexivity.
  Qed.

  (** *** One step over the channels *)
  Definition labs (ce : option (Label * list Ev)) : list Label := match ce with Some (l, _) => [l] | None => [] end.
  Definition evss (ce : option (Label * list Ev)) : list (list Ev) := match ce with Some (_, e) => [e] | None => [] end.

  Lemma client_step_inv l c c' ce : client_step l c = Some (c', ce) ->
    exists cl e a, step cfg l (cs_client c) = Some (cl, e) /\ a_step (fun _ _ _ => TxOk) (ASystem (SClient l)) (cs_a c) = Some a /\ c' = with_a _ _ _ c a /\ ce = Some (l, e).
  Proof.
    unfold ChanSysModel.client_step, cs_client. intros H. destruct (step cfg l _) as [[cl e]|]; [|discriminate].
    destruct (AsyncModel.a_step _ _ _ _ _ _ _ _ _ _ _ _ _ _) as [a|] eqn:E; [|discriminate]. injection H as <- <-. exists cl, e, a. auto.
  Qed.
  Lemma send_ok pref m ch : snd (chan_send pref m ch) = SentOk -> ch_rx ch = true /\ length (ch_queue ch) < ch_cap ch.
  Proof.
    unfold chan_send. destruct (_ && _)%bool; [discriminate|]. destruct (ch_rx ch); cbn [negb]; [|discriminate].
    destruct (_ <? _) eqn:E; [apply Nat.ltb_lt in E; auto|]. destruct (ch_stop ch); discriminate.
  Qed.
  Lemma send_closed pref m ch : snd (chan_send pref m ch) = SendClosed -> ch_stop ch = true \/ ch_rx ch = false.
  Proof.
    unfold chan_send. destruct (ch_stop ch); [auto|]. cbn [andb]. destruct (ch_rx ch); cbn [negb]; [|auto]. destruct (_ <? _); discriminate.
  Qed.
  Lemma send_waits pref m ch : snd (chan_send pref m ch) = SendWaiting -> ch_rx ch = true /\ ch_stop ch = false /\ ch_cap ch <= length (ch_queue ch).
  Proof.
    unfold chan_send. destruct (_ && _)%bool; [discriminate|]. destruct (ch_rx ch); cbn [negb]; [|discriminate].
    destruct (_ <? _) eqn:E; [discriminate|]. apply Nat.ltb_ge in E. destruct (ch_stop ch); [discriminate|auto].
  Qed.

  (** The steps of a link that keeps the order and cuts nothing. *)
  Definition in_turn (l : SysLabel) : Prop :=
    match l with SRecv i | SServe i | SLoseUp i => i = 0 | SCutDown _ _ | SEmptyDown _ => False | _ => True end.
  (** [b] is a frame that failed to be sent. *)
  Definition unsent (tr : Trace Val SCtx) (b : list N) : Prop := exists w h p, In (EvSend w h p (TxErr TxConnectionClosed)) tr /\ b = frame h p.

  Lemma one_run net l a a' : a_step net l a = Some a' ->
    match a_client_label _ _ _ l a with
    | Some x => forall c e, step cfg x (y_client (a_sys a)) = Some (c, e) -> a_run net [l] a = Some (a', [x], [e])
    | None => a_run net [l] a = Some (a', [], [])
    end.
  Proof.
    intros H. destruct (a_client_label _ _ _ l a) as [x|] eqn:X; [intros c e Sx|]; cbn [AsyncModel.a_run]; rewrite H, X; [rewrite Sx|]; reflexivity.
  Qed.

  Record Sim (c c' : CSys) (ce : list Label * list (list Ev)) (lsa : list ALabel) (new : Trace Val SCtx) : Prop := {
    sm_trace : cs_trace c' = cs_trace c ++ new;
    sm_run : forall os, a_run (net_of (outcomes (cs_trace c') ++ os)) lsa (cs_a c) = Some (cs_a c', fst ce, snd ce);
    sm_up : forall os, Forall (fun b => buf < length b) (a_lost (a_step (net_of (outcomes (cs_trace c') ++ os))) loses_up lsa (cs_a c));
    sm_down : forall os, Forall (unsent new) (a_lost (a_step (net_of (outcomes (cs_trace c') ++ os))) loses_down lsa (cs_a c));
    sm_turn : Forall in_turn (system_labels lsa);
    sm_sent : forall w h p r, In (EvSend w h p r) new ->
      r = TxOk \/ (r = TxErr TxConnectionClosed /\ (cs_stopped _ _ _ c' = true \/ c_in_alive (cs_client c') = false)) }.

  (** A step that loses nothing. *)
  Lemma sim_one l c a ce : a_step (fun _ _ _ => TxOk) l (cs_a c) = Some a ->
    match l with ASystem l => in_turn l /\ (forall i, l <> SLoseUp i /\ l <> SLoseDown i) | AResume => True end ->
    match a_client_label _ _ _ l (cs_a c) with
    | Some x => exists cl e, step cfg x (cs_client c) = Some (cl, e) /\ ce = Some (x, e)
    | None => ce = None
    end ->
    exists lsa new, Sim c (with_a _ _ _ c a) (labs ce, evss ce) lsa new.
  Proof.
    intros St Hl Hce. destruct (step_const _ _ _ _ St) as (new & Tr & Sent & _ & Net). exists [l], new.
    assert (Lo : forall os loses, (loses = loses_up \/ loses = loses_down) -> a_lost (a_step (net_of (outcomes (cs_trace (with_a _ _ _ c a)) ++ os))) loses [l] (cs_a c) = []).
    { intros os loses D. cbn [a_lost]. unfold cs_trace. cbn [with_a ChanSysModel.cs_a]. rewrite (Net os), app_nil_r. destruct l as [l|]; auto. destruct Hl as (T & L).
      destruct D as [-> | ->]; destruct l; auto; try destruct (L i) as (L1 & L2); try congruence; cbn [in_turn] in T; destruct T. }
    split.
    - exact Tr.
    - intros os. unfold cs_trace. cbn [with_a ChanSysModel.cs_a]. specialize (Net os). pose proof (one_run _ _ _ _ Net) as R.
      destruct (a_client_label _ _ _ l (cs_a c)) as [x|].
      + destruct Hce as (cl & e & Sx & ->). exact (R _ _ Sx).
      + subst ce. exact R.
    - intros os. rewrite Lo by auto. constructor.
    - intros os. rewrite Lo by auto. constructor.
    - destruct l as [l|]; cbn; [|constructor]. constructor; [|constructor]. apply Hl.
    - intros w h p r Hi. left. apply (Sent _ _ _ _ Hi).
  Qed.
  Lemma sim_none c c' : cs_a c' = cs_a c -> exists lsa new, Sim c c' ([], []) lsa new.
  Proof.
    intros E. exists [], []. unfold cs_trace, cs_client. split; unfold cs_trace, cs_client; rewrite ?E, ?app_nil_r; cbn; auto; intros ? ? ? ? [].
  Qed.

  Lemma step_sim l c c' ce : c_step l c = Some (c', ce) -> exists lsa new, Sim c c' (labs ce, evss ce) lsa new.
  Proof.
    assert (Cl : forall x c c' ce, (forall b, x <> LRecv b) -> client_step x c = Some (c', ce) -> exists lsa new, Sim c c' (labs ce, evss ce) lsa new).
    { clear. intros x c c' ce Nr H. destruct (client_step_inv _ _ _ _ H) as (cl & e & a & Sx & Sa & -> & ->).
      eapply sim_one; [exact Sa| |]. { split; [exact Logic.I|]. intros i. split; discriminate. } cbn [a_client_label client_label]. exists cl, e. auto. }
    destruct l as [l| | |pref|pref who| |]; cbn [ChanSysModel.c_step]; intros H.
    - destruct l; try discriminate H; try (eapply Cl; [|exact H]; discriminate). destruct reached; [discriminate|]. eapply Cl; [|exact H]. discriminate.
    - destruct (snd _); try discriminate H; eapply Cl; try exact H; discriminate.
    - unfold host_receive in H. cbn [down_for_client ch_queue ch_tx] in H. destruct (y_down (a_sys (cs_a c))) as [|b q] eqn:D.
      + destruct (negb _); [|discriminate]. eapply Cl; try exact H. discriminate.
      + destruct (step cfg (LRecv b) _) as [[cl e]|] eqn:Sx; [|discriminate].
        destruct (AsyncModel.a_step _ _ _ _ _ _ _ _ _ _ _ _ _ _) as [a|] eqn:Sa; [|discriminate]. injection H as <- <-.
        eapply sim_one; [exact Sa| |]. { split; [reflexivity|]. intros i. split; discriminate. } cbn [a_client_label client_label]. rewrite D. exists cl, e. auto.
    - destruct (a_cur (cs_a c)) as [|] eqn:Cu; [discriminate|]. destruct (_ && _)%bool; [|discriminate]. unfold chan_receive in H. cbn [up_for_server ch_stop ch_queue ch_tx ch_cap ch_rx] in H.
      destruct (_ && _)%bool. { injection H as <- <-. apply sim_none. reflexivity. }
      destruct (y_up (a_sys (cs_a c))) as [|b q] eqn:U.
      + destruct (negb _); [injection H as <- <-; apply sim_none; reflexivity|].
        match type of H with context [if ?x then (_, CClosed) else _] => destruct x end; [|discriminate]. injection H as <- <-. apply sim_none. reflexivity.
      + destruct (length b <=? buf) eqn:L.
        * destruct (AsyncModel.a_step _ _ _ _ _ _ _ _ _ _ _ _ _ _) as [a|] eqn:Sa; [|discriminate]. injection H as <- <-.
          eapply sim_one; [exact Sa| |reflexivity]. split; [reflexivity|]. intros i. split; discriminate.
        * injection H as <- <-. cbn [ch_queue]. apply Nat.leb_gt in L. exists [ASystem (SLoseUp 0)], [].
          assert (St : forall net, a_step net (ASystem (SLoseUp 0)) (cs_a c) = Some (set_frames _ _ _ q (y_down (a_sys (cs_a c))) (cs_a c))).
          { intros net. cbn [AsyncModel.a_step SystemModel.sys_step]. rewrite U. cbn [nth_error]. reflexivity. }
          split.
          -- unfold cs_trace. cbn. now rewrite app_nil_r.
          -- intros os. exact (one_run _ _ _ _ (St _)).
          -- intros os. cbn [a_lost loses_up]. rewrite St, U. cbn [nth_error app]. auto.
          -- intros os. cbn [a_lost loses_down]. rewrite St. cbn [nth_error app]. auto.
          -- constructor; auto. reflexivity.
          -- intros ? ? ? ? [].
    - set (l := match who with None => AResume | Some i => ASystem (STask i) end) in *.
      assert (Hl : l = AResume \/ exists i, l = ASystem (STask i)) by (unfold l; destruct who; eauto).
      assert (Hcl : a_client_label _ _ _ l (cs_a c) = None) by (unfold l; destruct who; reflexivity).
      destruct (snd _) eqn:Sn; [| |discriminate].
      + destruct (AsyncModel.a_step _ _ _ _ _ _ _ _ _ _ _ _ _ _) as [a|] eqn:Sa; [|discriminate]. injection H as <- <-.
        eapply sim_one; [exact Sa| |]. { destruct Hl as [-> |(i & ->)]; auto. split; [exact Logic.I|]. split; discriminate. } rewrite Hcl. reflexivity.
      + destruct (AsyncModel.a_step _ _ _ _ _ _ _ _ _ _ _ _ _ _) as [a|] eqn:Sa; [|discriminate]. injection H as <- <-.
        destruct (step_const _ _ _ _ Sa) as (new & Tr & Sent & Down & Net). destruct (Down Hl) as (w & h & p & Ed & Hi). exists [l; ASystem (SLoseDown (length (y_down (a_sys (cs_a c)))))], new.
        assert (Up : y_up (a_sys a) = y_up (a_sys (cs_a c)) /\ y_client (a_sys a) = y_client (a_sys (cs_a c))).
        { clear - Sa Hl. destruct Hl as [-> |(i & ->)]; cbn [AsyncModel.a_step SystemModel.sys_step] in Sa.
          - destruct (a_cur (cs_a c)) as [[| | |w h p k]|]; try discriminate. injection Sa as <-. unfold AsyncModel.carry_on. destruct (settle _ _ _ _ _) as [[[ctx res]| | |] tr]; auto.
          - destruct (nth_error _ _) as [[|key seq p k]|]; try discriminate. destruct (send_keyed _ _ _ _ _ _ _ _ _). injection Sa as <-. auto. }
        destruct Up as (Up & Uc).
        assert (St2 : forall net, a_step net (ASystem (SLoseDown (length (y_down (a_sys (cs_a c)))))) a = Some (set_frames _ _ _ (y_up (a_sys (cs_a c))) (y_down (a_sys (cs_a c))) a)).
        { intros net. cbn [AsyncModel.a_step SystemModel.sys_step]. rewrite Ed, nth_error_app2, Nat.sub_diag by lia. cbn [nth_error].
          unfold set_frames. rewrite Up. assert (R : forall l : list (list N), remove_nth (length l) (l ++ [frame h p]) = l) by (clear; induction l; cbn; congruence). rewrite R. reflexivity. }
        assert (N2 : nth_error (y_down (a_sys a)) (length (y_down (a_sys (cs_a c)))) = Some (frame h p)) by (rewrite Ed, nth_error_app2, Nat.sub_diag by lia; reflexivity).
        split; unfold cs_trace; cbn [with_a set_frames ChanSysModel.cs_a AsyncModel.a_sys SystemModel.y_trace].
        * exact Tr.
        * intros os. cbn [AsyncModel.a_run]. rewrite (Net os), St2, Hcl. cbn [a_client_label client_label]. reflexivity.
        * intros os. cbn [a_lost]. rewrite (Net os), St2. cbn [loses_up app]. destruct Hl as [-> |(i & ->)]; constructor.
        * intros os. cbn [a_lost]. rewrite (Net os), St2. cbn [loses_down app]. rewrite N2. destruct Hl as [-> |(i & ->)]; cbn [app loses_down]; (constructor; [exists w, h, p; auto|constructor]).
        * destruct Hl as [-> |(i & ->)]; repeat constructor.
        * intros w' h' p' r' Hi'. right. destruct (Sent _ _ _ _ Hi') as (-> & _). split; [reflexivity|]. apply send_closed in Sn. unfold cs_client. cbn [with_a set_frames ChanSysModel.cs_a AsyncModel.a_sys SystemModel.y_client ChanSysModel.cs_stopped].
          rewrite Uc. exact Sn.
    - injection H as <- <-. apply sim_none. reflexivity.
    - destruct (_ || _)%bool; [|discriminate]. injection H as <- <-. apply sim_none. reflexivity.
  Qed.

  (** *** Histories *)
  Lemma step_flags l c c' ce : c_step l c = Some (c', ce) ->
    (cs_stopped _ _ _ c = true -> cs_stopped _ _ _ c' = true) /\ (c_in_alive (cs_client c) = false -> c_in_alive (cs_client c') = false).
  Proof.
    intros H. split.
    - assert (G : forall l c c' ce, client_step l c = Some (c', ce) -> cs_stopped _ _ _ c' = cs_stopped _ _ _ c).
      { clear. intros l c c' ce H. destruct (client_step_inv _ _ _ _ H) as (cl & e & a & _ & _ & -> & _). reflexivity. }
      destruct l as [l| | |pref|pref who| |]; cbn [ChanSysModel.c_step] in H.
      + destruct l; try discriminate; try (rewrite (G _ _ _ _ H); auto). destruct reached; [discriminate|]. rewrite (G _ _ _ _ H); auto.
      + destruct (snd _); try discriminate; rewrite (G _ _ _ _ H); auto.
      + destruct (host_receive _) as [? []]; try discriminate; try (rewrite (G _ _ _ _ H); auto; fail).
        destruct (step _ _ _) as [[]|]; [|discriminate]. destruct (AsyncModel.a_step _ _ _ _ _ _ _ _ _ _ _ _ _ _); [|discriminate]. injection H as <- _. auto.
      + destruct (a_cur _); [discriminate|]. destruct (_ && _)%bool; [|discriminate]. destruct (chan_receive _ _ _) as [? []]; try discriminate; try (injection H as <- _; auto; fail).
        destruct (AsyncModel.a_step _ _ _ _ _ _ _ _ _ _ _ _ _ _); [|discriminate]. injection H as <- _. auto.
      + destruct (snd _); try discriminate; destruct (AsyncModel.a_step _ _ _ _ _ _ _ _ _ _ _ _ _ _); try discriminate; injection H as <- _; auto.
      + injection H as <- _. auto.
      + destruct (_ || _)%bool; [|discriminate]. injection H as <- _. auto.
    - destruct (step_sim _ _ _ _ H) as (lsa & new & [_ R _ _ _ _]). specialize (R []). apply a_client_run in R. intros E.
      destruct (c_in_alive (cs_client c')) eqn:E'; auto. rewrite <- E. symmetry. eapply run_in_alive; [exact R|exact E'].
  Qed.
  Lemma run_flags ls : forall c c' cl es, c_run ls c = Some (c', cl, es) ->
    (cs_stopped _ _ _ c = true -> cs_stopped _ _ _ c' = true) /\ (c_in_alive (cs_client c) = false -> c_in_alive (cs_client c') = false).
  Proof.
    induction ls as [|l ls IH]; intros c c' cl es H; cbn [ChanSysModel.c_run] in H; [injection H as <- _ _; auto|].
    destruct (c_step l c) as [[c1 ce]|] eqn:St; [|discriminate]. destruct (c_run ls c1) as [[[c2 cl2] es2]|] eqn:R; [|discriminate].
    assert (c2 = c') by (destruct ce as [[? ?]|]; congruence). subst c2. destruct (IH _ _ _ _ R) as (A & B). destruct (step_flags _ _ _ _ St) as (A' & B'). auto.
  Qed.

  Lemma run_sim ls : forall c c' cl es, c_run ls c = Some (c', cl, es) -> exists lsa new, Sim c c' (cl, es) lsa new.
  Proof.
    induction ls as [|l ls IH]; intros c c' cl es H; cbn [ChanSysModel.c_run] in H.
    - injection H as <- <- <-. apply sim_none. reflexivity.
    - destruct (c_step l c) as [[c1 ce]|] eqn:St; [|discriminate]. destruct (c_run ls c1) as [[[c2 cl2] es2]|] eqn:R; [|discriminate].
      assert (c2 = c' /\ cl = labs ce ++ cl2 /\ es = evss ce ++ es2) as (-> & -> & ->) by (destruct ce as [[? ?]|]; injection H as <- <- <-; auto).
      destruct (IH _ _ _ _ R) as (ls2 & new2 & [T2 R2 U2 D2 O2 S2]). destruct (step_sim _ _ _ _ St) as (ls1 & new1 & [T1 R1 U1 D1 O1 S1]).
      cbn [fst snd] in R1, R2. exists (ls1 ++ ls2), (new1 ++ new2).
      assert (E : forall os, outcomes (cs_trace c') ++ os = outcomes (cs_trace c1) ++ (outcomes new2 ++ os)) by (intros; rewrite T2, outcomes_app, app_assoc; reflexivity).
      assert (Th := fun os => a_then _ _ _ _ _ _ _ _ _ _ (R1 (outcomes new2 ++ os)) (eq_ind _ (fun n => a_run (net_of n) ls2 (cs_a c1) = _) (R2 os) _ (E os))).
      split; cbn [fst snd].
      + rewrite T2, T1, app_assoc. reflexivity.
      + intros os. rewrite E. apply Th.
      + intros os. rewrite E, (proj2 (Th os)). apply Forall_app. split; [apply U1|]. rewrite <- E. apply U2.
      + intros os. rewrite E, (proj2 (Th os)). apply Forall_app. split.
        * eapply Forall_impl; [|apply D1]. intros b (w & h & p & Hi & Eb). exists w, h, p. split; auto. apply in_app_iff. auto.
        * rewrite <- E. eapply Forall_impl; [|apply D2]. intros b (w & h & p & Hi & Eb). exists w, h, p. split; auto. apply in_app_iff. auto.
      + unfold system_labels. rewrite flat_map_app. apply Forall_app. auto.
      + intros w h p r Hi. apply in_app_iff in Hi as [Hi|Hi]; [|eauto]. destruct (S1 _ _ _ _ Hi) as [->|(-> & X)]; auto. right. split; auto.
        destruct (run_flags _ _ _ _ _ R) as (A & B). destruct X; auto.
  Qed.
End P.
