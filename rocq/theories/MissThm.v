(** Theorems about subscribers that miss nothing: C75. *)
From Coq Require Import NArith List Bool Arith Lia Permutation.
From Verif Require Import KeyModel HeaderModel KeySpec HeaderSpec MinKeyModel MinKeySpec
  SchemaModel MacroModel PostcardModel DispatchModel DispatchSpec SubModel SubSpec SubProof SubThm2 ClientModel ClientSpec ClientProof ClientMore UsbSpec.
From Verif Require Import DispatchModel DispatchSpec SystemModel SystemSpec SystemProof SystemThm FlowSpec FlowProof FlowThm LiveSpec LiveProof LiveThm
  AsyncModel AsyncSpec AsyncProof AsyncThm ClientHist MissSpec MissProof.
Import ListNotations.

Section T.
  Context {Val Ctx SCtx : Type}.
  Variable std : StdKeys.
  Variable net : Trace Val SCtx -> VarHeader -> Payload Val -> TxRes.
  Variable can_spawn : Trace Val SCtx -> nat -> bool.
  Variable kkind : VarKeyKind.
  Variable spawn_ctxt : Ctx -> Ctx * SCtx.
  Variable d : Dispatcher Val Ctx.
  Variable enc : Payload Val -> list N.
  Variable task : nat -> SCtx -> VarHeader -> Val -> HProg Val unit.
  Variable bg : list (HProg Val unit).
  Variable cfg : Config.

  Notation a_step := (a_step Val Ctx SCtx std net can_spawn kkind spawn_ctxt d enc task cfg).
  Notation a_run := (a_run Val Ctx SCtx std net can_spawn kkind spawn_ctxt d enc task cfg).
  Notation a_sys := (a_sys Val Ctx SCtx).
  Notation a_cur := (a_cur Val Ctx SCtx).
  Notation y_client := (y_client Val Ctx SCtx).
  Notation y_down := (y_down Val Ctx SCtx).
  Notation y_trace := (y_trace Val Ctx SCtx).
  Notation frames_sent := (frames_sent Val SCtx enc).
  Notation carry_on := (carry_on Val Ctx SCtx can_spawn task).

  (** *** Runs *)
  Lemma run_then ls1 : forall ls2 a a1 cl1 es1 a2 cl2 es2,
    a_run ls1 a = Some (a1, cl1, es1) -> a_run ls2 a1 = Some (a2, cl2, es2) ->
    a_run (ls1 ++ ls2) a = Some (a2, cl1 ++ cl2, es1 ++ es2).
  Proof.
    induction ls1 as [|l ls1 IH]; intros ls2 a a1 cl1 es1 a2 cl2 es2 H1 H2; cbn [app AsyncModel.a_run] in *.
    - injection H1 as <- <- <-. auto.
    - destruct (a_step l a) as [a3|]; [|discriminate].
      destruct (a_run ls1 a3) as [[[a4 cl4] es4]|] eqn:R; [|discriminate].
      assert (E : a4 = a1) by (destruct (a_client_label _ _ _ l a) as [x|]; [destruct (step cfg x _) as [[c e]|]|]; congruence).
      subst a4. rewrite (IH _ _ _ _ _ _ _ _ R H2).
      destruct (a_client_label _ _ _ l a) as [x|].
      + destruct (step cfg x _) as [[c e]|] eqn:St; [|discriminate]. injection H1 as <- <-. reflexivity.
      + injection H1 as <- <-. reflexivity.
  Qed.

  Lemma carry_link s p : exists evs, y_trace (a_sys (carry_on s p)) = y_trace s ++ evs /\ frames_sent evs = [] /\
    y_down (a_sys (carry_on s p)) = y_down s /\ y_client (a_sys (carry_on s p)) = y_client s.
  Proof.
    unfold AsyncModel.carry_on. destruct (settle _ _ can_spawn p (y_trace s)) as [p' tr'] eqn:E.
    destruct (settle_spec task can_spawn _ _ _ _ E) as (evs & -> & O & _). exists evs.
    pose proof (no_outcomes_no_frames enc _ O) as F. destruct p' as [[ctx res]| | |]; cbn; auto.
  Qed.

  Lemma run_of_client ls : forall a a' cl es, a_run ls a = Some (a', cl, es) -> run cfg cl (y_client (a_sys a)) = Some (y_client (a_sys a'), es).
  Proof.
    induction ls as [|l ls IH]; intros a a' cl es H; cbn [AsyncModel.a_run] in H. { injection H as <- <- <-. reflexivity. }
    destruct (a_step l a) as [a1|] eqn:St; [|discriminate].
    destruct (a_run ls a1) as [[[a2 cl2] es2]|] eqn:R; [|discriminate]. specialize (IH _ _ _ _ R).
    assert (C : match a_client_label _ _ _ l a with
      | Some x => exists e, step cfg x (y_client (a_sys a)) = Some (y_client (a_sys a1), e)
      | None => y_client (a_sys a1) = y_client (a_sys a)
      end).
    { clear - St. destruct l as [l|].
      2:{ cbn [a_client_label]. cbn [AsyncModel.a_step] in St. destruct (a_cur a) as [[| | |w h p k]|]; try discriminate St. injection St as <-.
          destruct (carry_link (MkSys Val Ctx SCtx (y_client (a_sys a)) (y_up _ _ _ (a_sys a)) (y_down (a_sys a) ++ [rpc_to_bytes (MkFrame h (enc p))]) (y_ctx _ _ _ (a_sys a))
             (y_trace (a_sys a) ++ [EvSend w h p (net (y_trace (a_sys a)) h p)]) (y_tasks _ _ _ (a_sys a)) (y_serving _ _ _ (a_sys a)))
             (k (net (y_trace (a_sys a)) h p))) as (evs & _ & _ & _ & C). exact C. }
      cbn [a_client_label]. destruct l as [l|i|i|i|i|i|i n|i]; cbn [AsyncModel.a_step client_label] in St |- *.
      - destruct (SystemModel.sys_step _ _ _ _ _ _ _ _ _ _ _ _ _ _) as [s'|] eqn:Hs; [|discriminate]. injection St as <-. cbn [AsyncModel.a_sys].
        destruct (step_client std net can_spawn kkind spawn_ctxt enc task cfg d _ _ _ Hs) as (e & Nr & C & _). eauto.
      - destruct (SystemModel.sys_step _ _ _ _ _ _ _ _ _ _ _ _ _ _) as [s'|] eqn:Hs; [|discriminate]. injection St as <-. cbn [AsyncModel.a_sys].
        cbn [SystemModel.sys_step] in Hs. destruct (nth_error (y_down (a_sys a)) i) as [b|] eqn:Hn; [|discriminate]. cbn [option_map].
        destruct (step cfg (LRecv b) _) as [[c e]|] eqn:Sx; [|discriminate]. injection Hs as <-. exists e. reflexivity.
      - destruct (a_cur a); [discriminate|]. destruct (y_serving _); [|discriminate]. destruct (nth_error _ _) as [b|]; [|discriminate].
        destruct (take_from_slice b) as [[[hdr body]|]|]; [| |discriminate]; injection St as <-; [|reflexivity].
        match goal with |- y_client (a_sys (carry_on ?s ?p)) = _ => destruct (carry_link s p) as (evs & _ & _ & _ & C); rewrite C; reflexivity end.
      - destruct (SystemModel.sys_step _ _ _ _ _ _ _ _ _ _ _ _ _ _) as [s'|] eqn:Hs; [|discriminate]. injection St as <-. cbn [AsyncModel.a_sys].
        cbn [SystemModel.sys_step] in Hs. destruct (nth_error (y_tasks _ _ _ (a_sys a)) i) as [[|key seq p k]|]; try discriminate.
        unfold send_keyed, tx_send in Hs. injection Hs as <-. reflexivity.
      - destruct (SystemModel.sys_step _ _ _ _ _ _ _ _ _ _ _ _ _ _) as [s'|] eqn:Hs; [|discriminate]. injection St as <-. cbn [AsyncModel.a_sys].
        cbn [SystemModel.sys_step] in Hs. destruct (nth_error _ _); [|discriminate]. injection Hs as <-. reflexivity.
      - destruct (SystemModel.sys_step _ _ _ _ _ _ _ _ _ _ _ _ _ _) as [s'|] eqn:Hs; [|discriminate]. injection St as <-. cbn [AsyncModel.a_sys].
        cbn [SystemModel.sys_step] in Hs. destruct (nth_error _ _); [|discriminate]. injection Hs as <-. reflexivity.
      - destruct (SystemModel.sys_step _ _ _ _ _ _ _ _ _ _ _ _ _ _) as [s'|] eqn:Hs; [|discriminate]. injection St as <-. cbn [AsyncModel.a_sys].
        cbn [SystemModel.sys_step] in Hs. destruct (nth_error _ _); [|discriminate]. injection Hs as <-. reflexivity.
      - cbn [SystemModel.sys_step] in St. injection St as <-. reflexivity. }
    destruct (a_client_label _ _ _ l a) as [x|].
    - destruct C as (e & C). rewrite C in H. injection H as <- <- <-. cbn [ClientModel.run]. rewrite C, IH. reflexivity.
    - injection H as <- <- <-. rewrite <- C. exact IH.
  Qed.

  (** *** The link to the client keeps everything *)
  Lemma frame_of_nil : frame_of [] = []. Proof. reflexivity. Qed.

  Lemma flat_remove i b down : nth_error down i = Some b ->
    Permutation (frame_of b ++ flat_map frame_of (remove_nth i down)) (flat_map frame_of down).
  Proof.
    revert i. induction down as [|x down IH]; intros [|i] H; cbn in H; try discriminate.
    - injection H as ->. apply Permutation_refl.
    - specialize (IH _ H). change (remove_nth (S i) (x :: down)) with (x :: remove_nth i down). cbn [flat_map].
      eapply perm_trans; [|apply Permutation_app_head; exact IH]. rewrite !app_assoc. apply Permutation_app_tail, Permutation_app_comm.
  Qed.

  Lemma link a1 : forall ls a cl es, a_run ls a1 = Some (a, cl, es) -> keeps_down (system_labels ls) ->
    exists new, y_trace (a_sys a) = y_trace (a_sys a1) ++ new /\
      Permutation (arrived cl ++ flat_map frame_of (y_down (a_sys a))) (flat_map frame_of (y_down (a_sys a1)) ++ flat_map frame_of (frames_sent new)) /\
      (down_in_order (system_labels ls) ->
         arrived cl ++ flat_map frame_of (y_down (a_sys a)) = flat_map frame_of (y_down (a_sys a1)) ++ flat_map frame_of (frames_sent new)).
  Proof.
    apply (a_ind std kkind spawn_ctxt d enc task cfg net can_spawn (fun ls a cl es => keeps_down (system_labels ls) ->
      exists new, y_trace (a_sys a) = y_trace (a_sys a1) ++ new /\
        Permutation (arrived cl ++ flat_map frame_of (y_down (a_sys a))) (flat_map frame_of (y_down (a_sys a1)) ++ flat_map frame_of (frames_sent new)) /\
        (down_in_order (system_labels ls) ->
           arrived cl ++ flat_map frame_of (y_down (a_sys a)) = flat_map frame_of (y_down (a_sys a1)) ++ flat_map frame_of (frames_sent new)))).
    { intros _. exists []. cbn [arrived flat_map app frames_sent]. rewrite !app_nil_r. split; auto. }
    intros ls a cl es l a' _ IH St.
    assert (Grow : forall evs sent, y_trace (a_sys a') = y_trace (a_sys a) ++ evs -> y_down (a_sys a') = y_down (a_sys a) ++ sent ->
      frames_sent evs = sent -> keeps_down (system_labels (ls ++ [l])) ->
      exists new, y_trace (a_sys a') = y_trace (a_sys a1) ++ new /\
        Permutation (arrived cl ++ flat_map frame_of (y_down (a_sys a'))) (flat_map frame_of (y_down (a_sys a1)) ++ flat_map frame_of (frames_sent new)) /\
        (down_in_order (system_labels (ls ++ [l])) ->
           arrived cl ++ flat_map frame_of (y_down (a_sys a')) = flat_map frame_of (y_down (a_sys a1)) ++ flat_map frame_of (frames_sent new))).
    { intros evs sent E1 E2 E3 K. rewrite system_labels_snoc in K |- *.
      destruct IH as (new & Et & P & O). { intros x Hx. apply K, in_app_iff. auto. }
      exists (new ++ evs). rewrite E1, E2, Et, <- app_assoc, (frames_app enc), E3, !flat_map_app. split; [reflexivity|]. split.
      - rewrite !app_assoc. apply Permutation_app_tail. exact P.
      - intros D. rewrite !app_assoc. f_equal. apply O. intros i Hi. apply D, in_app_iff. auto. }
    assert (Same : y_trace (a_sys a') = y_trace (a_sys a) -> y_down (a_sys a') = y_down (a_sys a) -> keeps_down (system_labels (ls ++ [l])) ->
      exists new, y_trace (a_sys a') = y_trace (a_sys a1) ++ new /\
        Permutation (arrived cl ++ flat_map frame_of (y_down (a_sys a'))) (flat_map frame_of (y_down (a_sys a1)) ++ flat_map frame_of (frames_sent new)) /\
        (down_in_order (system_labels (ls ++ [l])) ->
           arrived cl ++ flat_map frame_of (y_down (a_sys a')) = flat_map frame_of (y_down (a_sys a1)) ++ flat_map frame_of (frames_sent new))).
    { intros E1 E2. apply (Grow [] []); auto; rewrite app_nil_r; auto. }
    destruct l as [l|].
    2:{ cbn [a_client_label]. cbn [AsyncModel.a_step] in St. destruct (a_cur a) as [[| | |w h p k]|]; try discriminate St. injection St as <-.
        match goal with |- context [carry_on ?s ?p] => destruct (carry_link s p) as (evs & E1 & E2 & E3 & _) end.
        apply (Grow ([EvSend w h p (net (y_trace (a_sys a)) h p)] ++ evs) [rpc_to_bytes (MkFrame h (enc p))]).
        - rewrite E1. cbn [SystemModel.y_trace]. rewrite <- app_assoc. reflexivity.
        - exact E3.
        - rewrite (frames_app enc), E2. reflexivity. }
    cbn [a_client_label].
    destruct l as [l|i|i|i|i|i|i n|i]; cbn [AsyncModel.a_step client_label] in St |- *.
    - destruct (SystemModel.sys_step _ _ _ _ _ _ _ _ _ _ _ _ _ _) as [s'|] eqn:Hs; [|discriminate]. injection St as <-.
      destruct (step_client std net can_spawn kkind spawn_ctxt enc task cfg d _ _ _ Hs) as (e & Nr & _ & Es). cbn [AsyncModel.a_sys] in *.
      intros c e' _ K. rewrite arrived_app. replace (arrived [l]) with (@nil RpcFrame) by (destruct l; auto; destruct (Nr bytes eq_refl)). rewrite app_nil_r. apply Same; auto; rewrite Es; reflexivity.
    - destruct (SystemModel.sys_step _ _ _ _ _ _ _ _ _ _ _ _ _ _) as [s'|] eqn:Hs; [|discriminate]. injection St as <-. clear Grow Same.
      cbn [SystemModel.sys_step] in Hs. destruct (nth_error (y_down (a_sys a)) i) as [b|] eqn:Hn; [|discriminate]. cbn [option_map].
      destruct (step cfg (LRecv b) _) as [[c e]|]; [|discriminate]. injection Hs as <-. cbn [AsyncModel.a_sys SystemModel.y_trace SystemModel.y_down]. intros c' e' _ K.
      rewrite system_labels_snoc in K |- *. destruct IH as (new & Et & P & O). { intros x Hx. apply K, in_app_iff. auto. }
      exists new. split; auto. rewrite arrived_app. cbn [arrived flat_map]. rewrite app_nil_r, <- app_assoc. split.
      + eapply perm_trans; [|exact P]. apply Permutation_app_head. apply flat_remove. auto.
      + intros D. assert (i = 0) by (apply D, in_app_iff; right; left; auto). subst i. rewrite <- O.
        * destruct (y_down (a_sys a)) as [|b0 rest]; [discriminate|]. injection Hn as ->. reflexivity.
        * intros j Hj. apply D, in_app_iff. auto.
    - destruct (a_cur a); [discriminate|]. destruct (y_serving _); [|discriminate]. destruct (nth_error _ _) as [b|]; [|discriminate].
      destruct (take_from_slice b) as [[[hdr body]|]|]; [| |discriminate]; injection St as <-; [|auto].
      match goal with |- context [carry_on ?s ?p] => destruct (carry_link s p) as (evs & E1 & E2 & E3 & _) end.
      apply (Grow evs []); auto. rewrite app_nil_r. exact E3.
    - destruct (SystemModel.sys_step _ _ _ _ _ _ _ _ _ _ _ _ _ _) as [s'|] eqn:Hs; [|discriminate]. injection St as <-.
      cbn [SystemModel.sys_step] in Hs. destruct (nth_error (y_tasks _ _ _ (a_sys a)) i) as [[|key seq p k]|]; try discriminate.
      unfold send_keyed, tx_send in Hs. rewrite skipn_exact in Hs. injection Hs as <-. cbn [AsyncModel.a_sys SystemModel.y_trace SystemModel.y_down] in *.
      eapply Grow; reflexivity.
    - destruct (SystemModel.sys_step _ _ _ _ _ _ _ _ _ _ _ _ _ _) as [s'|] eqn:Hs; [|discriminate]. injection St as <-.
      cbn [SystemModel.sys_step] in Hs. destruct (nth_error _ _); [|discriminate]. injection Hs as <-. auto.
    - intros K. rewrite system_labels_snoc in K. destruct (K (SLoseDown i)). apply in_app_iff. right. left. auto.
    - intros K. rewrite system_labels_snoc in K. destruct (K (SCutDown i n)). apply in_app_iff. right. left. auto.
    - cbn [SystemModel.sys_step] in St. injection St as <-. clear Grow Same. cbn [AsyncModel.a_sys SystemModel.y_trace SystemModel.y_down].
      intros K. rewrite system_labels_snoc in K |- *. destruct IH as (new & Et & P & O). { intros x Hx. apply K, in_app_iff. auto. }
      assert (E : flat_map frame_of (firstn i (y_down (a_sys a)) ++ [] :: skipn i (y_down (a_sys a))) = flat_map frame_of (y_down (a_sys a))).
      { rewrite flat_map_app. cbn [flat_map]. rewrite frame_of_nil. cbn [app]. rewrite <- flat_map_app, firstn_skipn. reflexivity. }
      rewrite E. exists new. split; auto. split; auto. intros D. apply O. intros j Hj. apply D, in_app_iff. auto.
  Qed.

  (** *** What was transmitted *)
  Lemma messages_sent (t : Trace Val SCtx) k : (forall w h p r, In (EvSend w h p r) t -> seq_ok (hdr_seq h)) ->
    filter (of_topic k) (flat_map frame_of (frames_sent t)) = messages enc t k.
  Proof.
    induction t as [|e t IH]; intros H; [reflexivity|]. specialize (IH ltac:(intros; eapply H; right; eauto)).
    destruct e as [w h p r| |]; try exact IH.
    unfold SystemModel.frames_sent, messages. cbn [flat_map]. fold (frames_sent t). fold (messages enc t k).
    rewrite flat_map_app, filter_app, IH. f_equal. cbn [flat_map]. rewrite app_nil_r. unfold frame_of, rpc_to_bytes. cbn [f_hdr f_body].
    rewrite take_written_ok by (eapply H; left; reflexivity). cbn [filter]. unfold of_topic. cbn [f_hdr]. destruct (varkey_eqb _ _); reflexivity.
  Qed.

  Variable eps : EndpointMap.
  Variable tin tout : TopicMap.
  Variable ea : list (EpArm Val Ctx).
  Variable ta : list (TpArm Val Ctx).
  Hypothesis Hdisp : dispatcher_for eps tin tout ea ta d.
  Hypothesis Hdev : device_ok std eps tout ea.
  Hypothesis Hkk : klen (d_kind _ _ d) <= klen kkind.
  Hypothesis Hhand : handlers_ok std tout ea ta task bg.

  Variable ctx0 : Ctx.

  Section Whole.
  Variable ls : list ALabel.
  Variable a : ASys Val Ctx SCtx.
  Variable cl : list Label.
  Variable es : list (list Ev).
  Hypothesis Hrun : a_run ls (asys_new Val Ctx SCtx bg ctx0) = Some (a, cl, es).
  Hypothesis Hlab : Forall (label_ok eps tin) cl.

  Lemma sent_seq w h p r : In (EvSend w h p r) (y_trace (a_sys a)) -> seq_ok (hdr_seq h).
  Proof.
    intros Hi. destruct (sent_header std net can_spawn kkind spawn_ctxt d enc task bg cfg ctx0 ls a cl es Hrun eps tin tout ea ta Hdisp Hdev Hkk Hlab Hhand _ _ _ _ Hi)
      as (key & sq & -> & Hs). exact Hs.
  Qed.
  Lemma arrived_header f : In f (arrived cl) -> exists key sq, f_hdr f = out_header kkind key sq.
  Proof.
    intros Hf.
    pose proof (a_flow std kkind spawn_ctxt d enc task bg cfg net can_spawn ctx0 ls a cl es Hrun) as Fl.
    destruct (down_flow enc (system_labels ls) (y_trace (a_sys a)) cl (y_down (a_sys a)) Fl sent_seq) as (ss & kept & P & _ & Sk & F).
    assert (Hx : exists x, In x kept /\ f_hdr f = fst x).
    { clear - F Hf. induction F as [|f0 x l1 l2 [H _] F IH]; [destruct Hf|]. destruct Hf as [->|Hf]; [exists x; split; [left|]; auto|].
      destruct (IH Hf) as (y & Hy & E). exists y. split; [right|]; auto. }
    destruct Hx as ([h p] & Hx & E). cbn [fst] in E.
    assert (Hs : In (h, p) (sends (y_trace (a_sys a)))).
    { eapply Permutation_in; [apply Permutation_sym, P|]. clear - Sk Hx. induction Sk; cbn in *; intuition. }
    unfold sends in Hs. apply in_flat_map in Hs as (e & He & Hs). destruct e as [w h0 p0 r0| |]; cbn in Hs; try contradiction. destruct Hs as [[= <- <-]|[]].
    destruct (sent_header std net can_spawn kkind spawn_ctxt d enc task bg cfg ctx0 ls a cl es Hrun eps tin tout ea ta Hdisp Hdev Hkk Hlab Hhand _ _ _ _ He)
      as (key & sq & -> & _). eauto.
  Qed.
  Lemma arrived_distinct k cl' : only_topic kkind k cl -> incl cl' cl -> distinct k (topics_subscribed cl) (arrived cl').
  Proof.
    intros O I f k' Hf T Hk T'.
    assert (Hf' : In f (arrived cl)).
    { unfold arrived in *. apply in_flat_map in Hf as (l & Hl & Hf). apply in_flat_map. eauto. }
    destruct (arrived_header f Hf') as (key & sq & E). unfold of_topic in T, T'. rewrite E in T, T'. cbn [out_header hdr_key] in T, T'.
    apply O; auto. rewrite (topic_shrunk _ _ _ T), (topic_shrunk _ _ _ T'). reflexivity.
  Qed.
  End Whole.

  (** ** C75 A subscriber misses nothing *)
  Variables (k : Key8) (depth id : nat).
  Variable ls1 ls2 : list ALabel.
  Variable a1 a2 a : ASys Val Ctx SCtx.
  Variable cl1 cl2 : list Label.
  Variable es1 es2 : list (list Ev).
  Hypothesis Hrun1 : a_run ls1 (asys_new Val Ctx SCtx bg ctx0) = Some (a1, cl1, es1).
  Hypothesis Hrun2 : a_run ls2 a2 = Some (a, cl2, es2).
  Hypothesis Hlab1 : Forall (label_ok eps tin) cl1.
  Hypothesis Hlab2 : Forall (label_ok eps tin) cl2.
  Hypothesis Hrecv : still_receiving (cl1 ++ cl2).
  Hypothesis Hkeeps : keeps_down (system_labels ls2).

  Lemma sub_same o e : a_run [ASystem (SClient (LSub o))] a1 = Some (a2, [LSub o], e) -> user_op o = true ->
    y_trace (a_sys a2) = y_trace (a_sys a1) /\ y_down (a_sys a2) = y_down (a_sys a1).
  Proof.
    intros H U. destruct (link a1 _ _ _ _ H) as (new & E1 & _ & E2).
    { intros l [<-|[]]. exact Logic.I. }
    cbn [AsyncModel.a_run AsyncModel.a_step] in H. cbn [SystemModel.sys_step] in H.
    destruct (step cfg (LSub o) (y_client (a_sys a1))) as [[c e']|] eqn:St; [|discriminate].
    cbn [a_client_label client_label] in H. rewrite St in H. injection H as <- <-. auto.
  Qed.

  Theorem C75_nothing_missed :
    a_run [ASystem (SClient (LSub (SubscribeExclusive k depth)))] a1 = Some (a2, [LSub (SubscribeExclusive k depth)], [[EvSub (ORes (Subscribed id))]]) ->
    kept cl2 k id -> only_topic kkind k (cl1 ++ LSub (SubscribeExclusive k depth) :: cl2) ->
    patient cl2 cfg \/ keeps_up cl2 es2 k id depth ->
    exists new waiting,
      y_trace (a_sys a) = y_trace (a_sys a1) ++ new /\
      Permutation (given cl2 es2 id ++ waiting ++ on_the_way k (y_down (a_sys a)))
                  (on_the_way k (y_down (a_sys a1)) ++ messages enc new k) /\
      (down_in_order (system_labels ls2) ->
         given cl2 es2 id ++ waiting ++ on_the_way k (y_down (a_sys a)) =
         on_the_way k (y_down (a_sys a1)) ++ messages enc new k) /\
      length waiting <= S depth /\
      (keeps_up cl2 es2 k id depth -> length waiting <= depth) /\
      (found_empty cl2 es2 id -> keeps_up cl2 es2 k id depth \/ blocked (c_subs (y_client (a_sys a))) = false -> waiting = []).
  Proof.
    intros Hs K O G. set (o := SubscribeExclusive k depth) in *.
    assert (Hw : a_run (ls1 ++ [ASystem (SClient (LSub o))] ++ ls2) (asys_new Val Ctx SCtx bg ctx0) =
      Some (a, cl1 ++ LSub o :: cl2, es1 ++ [EvSub (ORes (Subscribed id))] :: es2)).
    { exact (run_then _ _ _ _ _ _ _ _ _ Hrun1 (run_then _ _ _ _ _ _ _ _ _ Hs Hrun2)). }
    assert (Hl : Forall (label_ok eps tin) (cl1 ++ LSub o :: cl2)).
    { apply Forall_app. split; auto. constructor; auto. exact Logic.I. }
    destruct (sub_same _ _ Hs eq_refl) as [Et Ed].
    destruct (link a2 _ _ _ _ Hrun2 Hkeeps) as (new & T & P & Q). rewrite Et in T. rewrite Ed in P, Q.
    assert (Sq : forall w h p r, In (EvSend w h p r) new -> seq_ok (hdr_seq h)).
    { intros w h p r Hi. eapply (sent_seq _ _ _ _ Hw Hl). rewrite T. apply in_app_iff. right. exact Hi. }
    (* the client *)
    pose proof (run_of_client _ _ _ _ _ (run_then _ _ _ _ _ _ _ _ _ Hrun1 Hs)) as R12. cbn [AsyncModel.asys_new AsyncModel.a_sys SystemModel.sys_new SystemModel.y_client] in R12.
    pose proof (run_of_client _ _ _ _ _ Hrun2) as R2.
    pose proof (run_of_client _ _ _ _ _ Hs) as Rs.
    pose proof (run_of_client _ _ _ _ _ Hrun1) as R1. cbn [AsyncModel.asys_new AsyncModel.a_sys SystemModel.sys_new SystemModel.y_client] in R1.
    assert (Al : c_in_alive (y_client (a_sys a)) = true).
    { rewrite (run_alive cfg _ _ _ _ (run_of_client _ _ _ _ _ Hw)); [reflexivity|]. destruct Hrecv as [N1 N2].
      split; intros Y; apply in_app_iff in Y as [Y|[Y|Y]]; try discriminate; [apply N1|apply N1|apply N2|apply N2]; apply in_app_iff; auto. }
    destruct (reach_flow cfg _ _ _ R12) as [I12 _]. destruct (reach_flow cfg _ _ _ R1) as [I1 _].
    set (keys := topics_subscribed (cl1 ++ LSub o :: cl2)).
    assert (X : XSim k id depth keys (c_subs (y_client (a_sys a2))) [] None false).
    { cbn [ClientModel.run ClientModel.step user_op o] in Rs. change (user_op o) with true in Rs. cbv iota in Rs.
      destruct (sub_step (cfg_no_wait cfg) o (c_subs (y_client (a_sys a1)))) as [[s out]|] eqn:SS; [|discriminate]. injection Rs as Ec ->. 
      rewrite <- Ec. cbn [set_in c_subs]. cbn [sub_step o] in SS.
      unfold o in SS. cbn [sub_step] in SS. unfold blocked in SS. destruct (s_blocked (c_subs (y_client (a_sys a1)))) eqn:BN; [discriminate|].
      destruct (subscribe_mpsc false k depth (c_subs (y_client (a_sys a1)))) as [s' r] eqn:E. injection SS as -> ->.
      rewrite <- Ec in I12. cbn [set_in c_subs] in I12.
      apply sub_mpsc_cases in E.
      assert (Y : nth_error (s_chans s) id = Some (MkMpsc depth [] true) /\ In (k, id) (exclusive_list s) /\ s_blocked s = None).
      { destruct E as [(-> & E)|(_ & _ & Ei & l & -> & E)].
        - destruct E as [(_ & E)|[(_ & _ & E)|(_ & _ & _ & E & _)]]; discriminate.
        - injection Ei as ->. cbn [with_exclusive s_chans exclusive_list s_blocked]. rewrite nth_error_app2, Nat.sub_diag by lia.
          split; [reflexivity|]. split; auto. destruct E as [(old & O' & _ & ->)|(N & ->)];
            [apply replace_has; now apply (in_map fst) in O'|apply in_app_iff; right; now left]. }
      destruct Y as (Y1 & Y2 & Y3). constructor; auto.
      - intros k' i Z. apply (i_in _ _ I12) in Z. destruct Z as (d' & Z). unfold sub_calls in Z. rewrite !in_flat_map in Z.
        unfold keys, topics_subscribed. apply in_flat_map.
        assert (J : forall x e, In (x, e) (combine (cl1 ++ [LSub o]) (es1 ++ [[EvSub (ORes (Subscribed id))]])) -> In x (cl1 ++ LSub o :: cl2)).
        { intros x e Hx. apply in_combine_l in Hx. apply in_app_iff in Hx as [Hx|[<-|[]]]; apply in_app_iff; auto. right. left. auto. }
        destruct Z as [([l e] & Z1 & Z2)|([l e] & Z1 & Z2)]; destruct l; try contradiction; destruct e as [|[] []]; try contradiction; destruct Z2 as [[= -> ->]|[]];
          (eexists; split; [eapply J; exact Z1|left; reflexivity]).
      - unfold blockrel. rewrite Y3. reflexivity. }
    assert (D : distinct k keys (arrived cl2)).
    { eapply arrived_distinct; eauto. intros x Hx. apply in_app_iff. right. right. exact Hx. }
    destruct (x_account cfg k id keys depth cl2 _ _ _ _ [] None false R2 Al I12 X) as (tr' & q & w & mine & I' & X' & C & W & E); auto.
    { unfold keys, topics_subscribed. rewrite flat_map_app. apply incl_appr. cbn [flat_map]. apply incl_appr, incl_refl. }
    { destruct G as [G|G]; [left; exact G|right]. split; auto. }
    cbn [app of_opt] in C.
    exists new, (q ++ of_opt w). split; [exact T|].
    assert (Lq : length q <= depth).
    { destruct X' as [_ _ XC _]. destruct (i_cap _ _ I' _ (nth_error_In _ _ XC)) as [_ L]. exact L. }
    split; [|split; [|split; [|split]]].
    - rewrite app_assoc, C. unfold on_the_way. rewrite <- filter_app, <- (messages_sent _ _ Sq), <- filter_app. apply FlowBase.filter_perm. exact P.
    - intros Do. rewrite app_assoc, C. unfold on_the_way. rewrite <- filter_app, <- (messages_sent _ _ Sq), <- filter_app. f_equal. apply Q. exact Do.
    - rewrite app_length. destruct w; cbn [of_opt length]; lia.
    - intros Ku. rewrite (W (conj eq_refl Ku)). cbn [of_opt]. rewrite app_nil_r. exact Lq.
    - intros Fe B. rewrite (E Fe). cbn [app]. destruct B as [Ku|B].
      + rewrite (W (conj eq_refl Ku)). reflexivity.
      + rewrite (xsim_w k id depth keys _ _ _ _ X'). unfold blocked in B. destruct (s_blocked (c_subs (y_client (a_sys a)))); [discriminate|reflexivity].
  Qed.

  Theorem C75_multi_nothing_missed :
    a_run [ASystem (SClient (LSub (SubscribeMulti k depth)))] a1 = Some (a2, [LSub (SubscribeMulti k depth)], [[EvSub (ORes (Subscribed id))]]) ->
    kept_multi cl2 id -> only_topic kkind k (cl1 ++ LSub (SubscribeMulti k depth) :: cl2) ->
    never_lagged cl2 es2 id \/ ((forall d', ~ In (LSub (SubscribeMulti k d')) cl1) /\ keeps_up_multi cl2 es2 k id depth) ->
    never_lagged cl2 es2 id /\ never_closed cl2 es2 id /\
    exists new waiting,
      y_trace (a_sys a) = y_trace (a_sys a1) ++ new /\
      Permutation (given_multi cl2 es2 id ++ waiting ++ on_the_way k (y_down (a_sys a)))
                  (on_the_way k (y_down (a_sys a1)) ++ messages enc new k) /\
      (down_in_order (system_labels ls2) ->
         given_multi cl2 es2 id ++ waiting ++ on_the_way k (y_down (a_sys a)) =
         on_the_way k (y_down (a_sys a1)) ++ messages enc new k) /\
      (found_empty_multi cl2 es2 id -> waiting = []).
  Proof.
    intros Hs K O G. set (o := SubscribeMulti k depth) in *.
    assert (Hw : a_run (ls1 ++ [ASystem (SClient (LSub o))] ++ ls2) (asys_new Val Ctx SCtx bg ctx0) =
      Some (a, cl1 ++ LSub o :: cl2, es1 ++ [EvSub (ORes (Subscribed id))] :: es2)).
    { exact (run_then _ _ _ _ _ _ _ _ _ Hrun1 (run_then _ _ _ _ _ _ _ _ _ Hs Hrun2)). }
    assert (Hl : Forall (label_ok eps tin) (cl1 ++ LSub o :: cl2)).
    { apply Forall_app. split; auto. constructor; auto. exact Logic.I. }
    destruct (sub_same _ _ Hs eq_refl) as [Et Ed].
    destruct (link a2 _ _ _ _ Hrun2 Hkeeps) as (new & T & P & Q). rewrite Et in T. rewrite Ed in P, Q.
    assert (Sq : forall w h p r, In (EvSend w h p r) new -> seq_ok (hdr_seq h)).
    { intros w h p r Hi. eapply (sent_seq _ _ _ _ Hw Hl). rewrite T. apply in_app_iff. right. exact Hi. }
    pose proof (run_of_client _ _ _ _ _ (run_then _ _ _ _ _ _ _ _ _ Hrun1 Hs)) as R12. cbn [AsyncModel.asys_new AsyncModel.a_sys SystemModel.sys_new SystemModel.y_client] in R12.
    pose proof (run_of_client _ _ _ _ _ Hrun2) as R2.
    pose proof (run_of_client _ _ _ _ _ Hs) as Rs.
    pose proof (run_of_client _ _ _ _ _ Hrun1) as R1. cbn [AsyncModel.asys_new AsyncModel.a_sys SystemModel.sys_new SystemModel.y_client] in R1.
    assert (Al : c_in_alive (y_client (a_sys a)) = true).
    { rewrite (run_alive cfg _ _ _ _ (run_of_client _ _ _ _ _ Hw)); [reflexivity|]. destruct Hrecv as [N1 N2].
      split; intros Y; apply in_app_iff in Y as [Y|[Y|Y]]; try discriminate; [apply N1|apply N1|apply N2|apply N2]; apply in_app_iff; auto. }
    destruct (reach_flow cfg _ _ _ R12) as [I12 _]. destruct (reach_flow cfg _ _ _ R1) as [I1 _].
    set (keys := topics_subscribed (cl1 ++ LSub o :: cl2)).
    assert (Kx : forall k' c', In (k', c') (broadcast_list (c_subs (y_client (a_sys a2)))) -> In k' keys).
    { intros k' i Z. apply (i_bk _ _ I12) in Z. destruct Z as (i' & d' & Z). unfold sub_calls in Z. rewrite !in_flat_map in Z.
      unfold keys, topics_subscribed. apply in_flat_map.
      destruct Z as ([l e] & Z1 & Z2). destruct l; try contradiction; destruct e as [|[] []]; try contradiction; destruct Z2 as [[= -> ->]|[]].
      exists (LSub (SubscribeMulti k' d')). split; [|left; reflexivity]. apply in_combine_l in Z1. apply in_app_iff in Z1 as [Z1|[<-|[]]]; apply in_app_iff; auto. right. left. auto. }
    assert (X : exists c cap pre, MSim k id c cap pre keys (c_subs (y_client (a_sys a2))) [] 0 /\
      ((forall d', ~ In (LSub (SubscribeMulti k d')) cl1) -> depth <= cap)).
    { cbn [ClientModel.run ClientModel.step] in Rs. change (user_op o) with true in Rs. cbv iota in Rs.
      destruct (sub_step (cfg_no_wait cfg) o (c_subs (y_client (a_sys a1)))) as [[s out]|] eqn:SS; [|discriminate]. injection Rs as Ec ->.
      rewrite <- Ec in Kx |- *. cbn [set_in c_subs] in Kx |- *. unfold o in SS. cbn [sub_step] in SS. unfold blocked in SS.
      destruct (s_blocked (c_subs (y_client (a_sys a1)))) eqn:BN; [discriminate|].
      destruct (subscribe_multi k depth (c_subs (y_client (a_sys a1)))) as [s' r] eqn:E. injection SS as -> ->.
      clear Ec. unfold subscribe_multi in E. destruct (s_stopped _); [discriminate|].
      destruct (find _ _) as [[k' c]|] eqn:F.
      - apply find_key in F. cbn in F. destruct F as [-> F]. injection E as <- <-.
        destruct (nth_error (s_bcasts (c_subs (y_client (a_sys a1)))) c) as [b|] eqn:Nb.
        2: { apply nth_error_None in Nb. apply (i_blt _ _ I1) in F. lia. }
        exists c, (b_cap b), (b_log b). split.
        + constructor; cbn [broadcast_list s_bcasts s_mrxs s_blocked]; auto.
          * rewrite app_nil_r. destruct b; auto.
          * rewrite nth_error_app2, Nat.sub_diag by lia. cbn. do 2 f_equal. lia.
          * intros. congruence.
        + intros No. exfalso. destruct (i_bk _ _ I1 _ _ F) as (i & d' & Z). unfold sub_calls in Z. rewrite in_flat_map in Z.
          destruct Z as ([l e] & Z1 & Z2). destruct l; try contradiction; destruct e as [|[] []]; try contradiction; destruct Z2 as [[= -> ->]|[]].
          apply (No d'). eapply in_combine_l; eauto.
      - destruct depth as [|dd] eqn:Edd; [discriminate|]. injection E as <- <-.
        exists (length (s_bcasts (c_subs (y_client (a_sys a1))))), (next_power_of_two (S dd)), []. split.
        + constructor; cbn [broadcast_list s_bcasts s_mrxs s_blocked]; auto.
          * apply in_app_iff. right. now left.
          * rewrite nth_error_app2, Nat.sub_diag by lia. reflexivity.
          * rewrite nth_error_app2, Nat.sub_diag by lia. reflexivity.
          * intros. congruence.
        + intros _. apply next_pow2_bounds. lia. }
    destruct X as (c & cap & pre & X & Hcap).
    assert (D : distinct k keys (arrived cl2)).
    { eapply arrived_distinct; eauto. intros x Hx. apply in_app_iff. right. right. exact Hx. }
    destruct (m_account cfg k id keys c cap pre cl2 _ _ _ _ [] 0 R2 Al I12 X) as (tr' & arr & pos & I' & X' & Hp & C & NL & NC & E); auto.
    { unfold keys, topics_subscribed. rewrite flat_map_app. apply incl_appr. cbn [flat_map]. apply incl_appr, incl_refl. }
    { destruct G as [G|[G1 G2]]; [left; exact G|right]. intros n. specialize (G2 n). specialize (Hcap G1). cbn [skipn length]. lia. }
    cbn [app skipn] in C. split; [exact NL|]. split; [exact NC|].
    exists new, (skipn pos arr). split; [exact T|]. split; [|split].
    - rewrite app_assoc, C. unfold on_the_way. rewrite <- filter_app, <- (messages_sent _ _ Sq), <- filter_app. apply FlowBase.filter_perm. exact P.
    - intros Do. rewrite app_assoc, C. unfold on_the_way. rewrite <- filter_app, <- (messages_sent _ _ Sq), <- filter_app. f_equal. apply Q. exact Do.
    - exact E.
  Qed.

  (** *** When the system has come to rest *)
  Hypothesis Hrest : forall l, a_own_step l = true -> a_step l a = None.

  Lemma rest_down o e : a_run [ASystem (SClient (LSub o))] a1 = Some (a2, [LSub o], e) ->
    y_down (a_sys a) = [] /\ blocked (c_subs (y_client (a_sys a))) = false.
  Proof.
    intros Hs. pose proof (run_of_client _ _ _ _ _ (run_then _ _ _ _ _ _ _ _ _ Hrun1 (run_then _ _ _ _ _ _ _ _ _ Hs Hrun2))) as R.
    cbn [AsyncModel.asys_new AsyncModel.a_sys SystemModel.sys_new SystemModel.y_client] in R.
    assert (Ai : c_in_alive (y_client (a_sys a)) = true).
    { rewrite (run_alive cfg _ _ _ _ R); [reflexivity|]. destruct Hrecv as [N1 N2].
      split; intros Y; apply in_app_iff in Y as [Y|[Y|Y]]; try discriminate; [apply N1|apply N1|apply N2|apply N2]; apply in_app_iff; auto. }
    pose proof (reach_finv _ _ _ _ R) as (F1 & F2 & F3 & F4 & F5 & F6). pose proof (reach_cinv _ _ _ _ R) as HI.
    assert (Can : forall l c e, step cfg l (y_client (a_sys a)) = Some (c, e) -> own_client l = true -> False).
    { intros l c e' St Ol. specialize (Hrest (ASystem (SClient l)) Ol). cbn [AsyncModel.a_step SystemModel.sys_step] in Hrest.
      rewrite St in Hrest. destruct l; discriminate. }
    assert (Offer : forall f, c_offer (y_client (a_sys a)) = Some f -> False).
    { intros f Eo. destruct (existsb (fun w => header_eqb (w_hdr w) (f_hdr f)) (c_waiters (y_client (a_sys a)))) eqn:Ex.
      - apply existsb_exists in Ex as (w & Hw & Hh). apply In_nth_error in Hw as (i & Hi).
        destruct (wi_from _ _ _ HI w (nth_error_In _ _ Hi)) as (q1 & k1 & K1 & _).
        eapply (Can (LWake (Some i))); eauto; cbn [step]. rewrite Eo, Hi, Hh, K1. reflexivity.
      - eapply (Can (LWake None)); eauto; cbn [step]. rewrite Eo, Ex. reflexivity. }
    assert (Bl : s_blocked (c_subs (y_client (a_sys a))) = None).
    { destruct (s_blocked (c_subs (y_client (a_sys a)))) as [[[c0 f] rm]|] eqn:B; auto. exfalso.
      eapply (Can (LUnblock TimeUp)); eauto; cbn [step sub_step]. unfold unblock. rewrite B, Ai. reflexivity. }
    split; [|unfold blocked; now rewrite Bl].
    destruct (y_down (a_sys a)) as [|b tl] eqn:Ed; auto. exfalso.
    specialize (Hrest (ASystem (SRecv 0)) eq_refl). cbn [AsyncModel.a_step SystemModel.sys_step] in Hrest. rewrite Ed in Hrest. cbn [nth_error] in Hrest.
    destruct (HeaderProof.take_defined b) as (o' & E).
    assert (St : exists c e, step cfg (LRecv b) (y_client (a_sys a)) = Some (c, e)).
    { cbn [step]. destruct (c_offer (y_client (a_sys a))) as [g|] eqn:Eo; [exfalso; eauto|]. rewrite Ai, E. unfold blocked at 1. rewrite Bl. cbn [negb orb].
      destruct o' as [[h1 b1]|]; [|eauto]. cbn [sub_step]. unfold blocked. rewrite Bl, F5 by auto. cbn [orb].
      destruct (deliver _ _ _) as [s1 []]; eauto. }
    destruct St as (c & e' & St). rewrite St in Hrest. discriminate.
  Qed.

  Theorem C75_all_received :
    a_run [ASystem (SClient (LSub (SubscribeExclusive k depth)))] a1 = Some (a2, [LSub (SubscribeExclusive k depth)], [[EvSub (ORes (Subscribed id))]]) ->
    kept cl2 k id -> only_topic kkind k (cl1 ++ LSub (SubscribeExclusive k depth) :: cl2) ->
    patient cl2 cfg \/ keeps_up cl2 es2 k id depth ->
    found_empty cl2 es2 id ->
    exists new,
      y_trace (a_sys a) = y_trace (a_sys a1) ++ new /\
      Permutation (given cl2 es2 id) (on_the_way k (y_down (a_sys a1)) ++ messages enc new k) /\
      (down_in_order (system_labels ls2) -> given cl2 es2 id = on_the_way k (y_down (a_sys a1)) ++ messages enc new k).
  Proof.
    intros Hs K O G Fe. destruct (rest_down _ _ Hs) as [Dn Bl].
    destruct (C75_nothing_missed Hs K O G) as (new & waiting & T & P & Q & _ & _ & E). exists new. split; auto.
    rewrite (E Fe (or_intror Bl)), Dn in *. cbn in P, Q. unfold on_the_way in P at 1, Q at 1. cbn in P, Q. rewrite app_nil_r in P, Q. auto.
  Qed.

  Theorem C75_multi_all_received :
    a_run [ASystem (SClient (LSub (SubscribeMulti k depth)))] a1 = Some (a2, [LSub (SubscribeMulti k depth)], [[EvSub (ORes (Subscribed id))]]) ->
    kept_multi cl2 id -> only_topic kkind k (cl1 ++ LSub (SubscribeMulti k depth) :: cl2) ->
    never_lagged cl2 es2 id \/ ((forall d', ~ In (LSub (SubscribeMulti k d')) cl1) /\ keeps_up_multi cl2 es2 k id depth) ->
    found_empty_multi cl2 es2 id ->
    exists new,
      y_trace (a_sys a) = y_trace (a_sys a1) ++ new /\
      Permutation (given_multi cl2 es2 id) (on_the_way k (y_down (a_sys a1)) ++ messages enc new k) /\
      (down_in_order (system_labels ls2) -> given_multi cl2 es2 id = on_the_way k (y_down (a_sys a1)) ++ messages enc new k).
  Proof.
    intros Hs K O G Fe. destruct (rest_down _ _ Hs) as [Dn Bl].
    destruct (C75_multi_nothing_missed Hs K O G) as (NL & _ & new & waiting & T & P & Q & E). exists new. split; auto.
    rewrite (E Fe), Dn in *. unfold on_the_way in P at 1, Q at 1. cbn in P, Q. rewrite app_nil_r in P, Q. auto.
  Qed.
End T.
Print Assumptions C75_nothing_missed.
Print Assumptions C75_multi_nothing_missed.
Print Assumptions C75_all_received.
Print Assumptions C75_multi_all_received.
