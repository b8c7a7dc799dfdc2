(** Lemmas about the system over bounded channels coming to rest. *)
From Coq Require Import NArith List Bool Arith Lia Permutation.
From Verif Require Import KeyModel HeaderModel KeySpec HeaderSpec KeyProof HeaderProof MinKeyModel SchemaModel MacroModel PostcardModel DispatchModel DispatchSpec SubModel SubProof
  ClientModel ClientSpec ClientProof ClientHist ClientMore SystemModel SystemSpec SystemProof LiveSpec LiveProof AsyncModel AsyncSpec AsyncProof ChanModel ChanSysModel ChanSysSpec ChanSysProof.
Import ListNotations.

(** Only the out worker puts frames on the link. *)
Lemma quiet_step cfg l c c' e : step cfg l c = Some (c', e) ->
  match l with LOutSent => length (wire_of e) = 1 | LOutFail true | LOutEnd true => True | _ => wire_of e = [] end.
Proof.
  intros H. destruct l; cbn [step] in H; try (destruct reached; [exact I|]);
    repeat match type of H with context [match ?x with _ => _ end] => lazymatch x with context [match _ with _ => _ end] => fail | _ => destruct x eqn:?; try discriminate end end;
    injection H as <- <-; reflexivity.
Qed.

(** A client whose workers have nothing left to do, except to receive. *)
Lemma idle_receives cfg c : FInv c -> CInv cfg c -> c_in_alive c = true ->
  (forall ch, step cfg (LWake ch) c = None) -> (forall w, step cfg (LUnblock w) c = None) ->
  c_offer c = None /\ blocked (c_subs c) = false /\ forall b, exists c' e, step cfg (LRecv b) c = Some (c', e).
Proof.
  intros (F1 & F2 & F3 & F4 & F5 & F6) HI Ai Hw Hu.
  assert (O : c_offer c = None).
  { destruct (c_offer c) as [f|] eqn:Eo; auto. exfalso. destruct (existsb (fun w => header_eqb (w_hdr w) (f_hdr f)) (c_waiters c)) eqn:Ex.
    - apply existsb_exists in Ex as (w & Hi & Hh). apply In_nth_error in Hi as (i & Hi).
      destruct (wi_from _ _ _ HI w (nth_error_In _ _ Hi)) as (q1 & k1 & K1 & _).
      specialize (Hw (Some i)). cbn [step] in Hw. rewrite Eo, Hi, Hh, K1 in Hw. discriminate.
    - specialize (Hw None). cbn [step] in Hw. rewrite Eo, Ex in Hw. discriminate. }
  assert (B : s_blocked (c_subs c) = None).
  { destruct (s_blocked (c_subs c)) as [[[c0 f] rm]|] eqn:B; auto. exfalso. specialize (Hu TimeUp). cbn [step sub_step] in Hu. unfold unblock in Hu. rewrite B, Ai in Hu. discriminate. }
  split; auto. split; [unfold blocked; now rewrite B|]. intros b. destruct (take_defined b) as (o & E).
  cbn [step]. rewrite O, Ai, E. unfold blocked at 1. rewrite B. cbn [negb orb]. destruct o as [[h bd]|]; [|eauto].
  cbn [sub_step]. unfold blocked. rewrite B, F5 by auto. cbn [orb]. destruct (deliver _ _ _) as [s1 []]; eauto.
Qed.

Section L.
  Context {Val Ctx SCtx : Type}.
  Variable std : StdKeys.
  Variable can_spawn : Trace Val SCtx -> nat -> bool.
  Variable kkind : VarKeyKind.
  Variable spawn_ctxt : Ctx -> Ctx * SCtx.
  Variable d : Dispatcher Val Ctx.
  Variable enc : Payload Val -> list N.
  Variable task : nat -> SCtx -> VarHeader -> Val -> HProg Val unit.
  Variable bg : list (HProg Val unit).
  Variable cfg : Config.
  Variable cap_up cap_down buf : nat.

  Notation c_step := (c_step Val Ctx SCtx std can_spawn kkind spawn_ctxt d enc task cfg cap_up cap_down buf).
  Notation c_run := (c_run Val Ctx SCtx std can_spawn kkind spawn_ctxt d enc task cfg cap_up cap_down buf).
  Notation a_step n := (a_step Val Ctx SCtx std n can_spawn kkind spawn_ctxt d enc task cfg).
  Notation a_run n := (a_run Val Ctx SCtx std n can_spawn kkind spawn_ctxt d enc task cfg).
  Notation sys_step n := (sys_step Val Ctx SCtx std n can_spawn kkind spawn_ctxt d enc task cfg).
  Notation client_step := (client_step Val Ctx SCtx std can_spawn kkind spawn_ctxt d enc task cfg).
  Notation client_step_inv := (client_step_inv std can_spawn kkind spawn_ctxt d enc task cfg).
  Notation a_sys := (a_sys Val Ctx SCtx).
  Notation a_cur := (a_cur Val Ctx SCtx).
  Notation y_client := (y_client Val Ctx SCtx). Notation y_up := (y_up Val Ctx SCtx). Notation y_down := (y_down Val Ctx SCtx).
  Notation y_trace := (y_trace Val Ctx SCtx). Notation y_tasks := (y_tasks Val Ctx SCtx). Notation y_serving := (y_serving Val Ctx SCtx).
  Notation cs_a := (cs_a Val Ctx SCtx).
  Notation CSys := (CSys Val Ctx SCtx).
  Notation carry_on := (carry_on Val Ctx SCtx can_spawn task).
  Notation ok_net := (fun (_ : Trace Val SCtx) (_ : VarHeader) (_ : Payload Val) => TxOk).
  Notation up c := (y_up (a_sys (cs_a c))).
  Notation down c := (y_down (a_sys (cs_a c))).

  Lemma a_client l s : (forall b, l <> LRecv b) -> a_step ok_net (ASystem (SClient l)) s =
    match step cfg l (y_client (a_sys s)) with
    | Some (c, e) => Some (MkASys _ _ _ (MkSys _ _ _ c (y_up (a_sys s) ++ wire_of e) (y_down (a_sys s)) (y_ctx _ _ _ (a_sys s)) (y_trace (a_sys s)) (y_tasks (a_sys s)) (y_serving (a_sys s))) (a_cur s))
    | None => None
    end.
  Proof. intros Nr. cbn [AsyncModel.a_step SystemModel.sys_step]. destruct l; try (destruct (step cfg _ _) as [[c e]|]; reflexivity). destruct (Nr bytes eq_refl). Qed.
  Lemma client_none l c : (forall b, l <> LRecv b) -> client_step l c = None -> step cfg l (cs_client c) = None.
  Proof.
    intros Nr H. unfold ChanSysModel.client_step in H. rewrite (a_client _ _ Nr) in H. unfold cs_client. destruct (step cfg l _) as [[c' e]|]; [discriminate|reflexivity].
  Qed.
  Lemma client_some l c c' ce : client_step l c = Some (c', ce) -> exists cl e, (forall b, l <> LRecv b) /\ step cfg l (cs_client c) = Some (cl, e) /\
    c' = with_a _ _ _ c (MkASys _ _ _ (MkSys _ _ _ cl (up c ++ wire_of e) (down c) (y_ctx _ _ _ (a_sys (cs_a c))) (y_trace (a_sys (cs_a c))) (y_tasks (a_sys (cs_a c))) (y_serving (a_sys (cs_a c)))) (a_cur (cs_a c))) /\ ce = Some (l, e).
  Proof.
    intros H. destruct (client_step_inv _ _ _ _ H) as (cl & e & a & Sx & Sa & -> & ->). exists cl, e.
    assert (Nr : forall b, l <> LRecv b). { intros b ->. cbn in Sa. discriminate. }
    rewrite (a_client _ _ Nr) in Sa. unfold cs_client in Sx. rewrite Sx in Sa. injection Sa as <-. auto.
  Qed.

  (** A case of [c_step] at a time. *)
  Inductive stepped (c : CSys) : CLabel -> CSys -> Prop :=
  | st_client l cl e : (forall b, l <> LRecv b) -> step cfg l (cs_client c) = Some (cl, e) -> wire_of e = [] -> l <> LInFail -> l <> LOutSent -> (forall b, l <> LOutFail b) -> l <> LOutEnd true ->
      stepped c (CClient l) (with_a _ _ _ c (MkASys _ _ _ (MkSys _ _ _ cl (up c) (down c) (y_ctx _ _ _ (a_sys (cs_a c))) (y_trace (a_sys (cs_a c))) (y_tasks (a_sys (cs_a c))) (y_serving (a_sys (cs_a c)))) (a_cur (cs_a c))))
  | st_sent cl e : step cfg LOutSent (cs_client c) = Some (cl, e) -> length (up c) < cap_up -> length (wire_of e) = 1 ->
      stepped c COut (with_a _ _ _ c (MkASys _ _ _ (MkSys _ _ _ cl (up c ++ wire_of e) (down c) (y_ctx _ _ _ (a_sys (cs_a c))) (y_trace (a_sys (cs_a c))) (y_tasks (a_sys (cs_a c))) (y_serving (a_sys (cs_a c)))) (a_cur (cs_a c))))
  | st_fail cl e l : step cfg l (cs_client c) = Some (cl, e) -> wire_of e = [] -> l = LOutFail false \/ l = LInFail ->
      stepped c (match l with LInFail => CRecv | _ => COut end) (with_a _ _ _ c (MkASys _ _ _ (MkSys _ _ _ cl (up c) (down c) (y_ctx _ _ _ (a_sys (cs_a c))) (y_trace (a_sys (cs_a c))) (y_tasks (a_sys (cs_a c))) (y_serving (a_sys (cs_a c)))) (a_cur (cs_a c))))
  | st_recv b q cl e : down c = b :: q -> step cfg (LRecv b) (cs_client c) = Some (cl, e) ->
      stepped c CRecv (with_a _ _ _ c (MkASys _ _ _ (MkSys _ _ _ cl (up c) q (y_ctx _ _ _ (a_sys (cs_a c))) (y_trace (a_sys (cs_a c))) (y_tasks (a_sys (cs_a c))) (y_serving (a_sys (cs_a c)))) (a_cur (cs_a c))))
  | st_serve pref b q a : up c = b :: q -> a_step ok_net (ASystem (SServe 0)) (cs_a c) = Some a -> y_up (a_sys a) = q -> y_down (a_sys a) = down c -> y_client (a_sys a) = cs_client c ->
      stepped c (CServe pref) (with_a _ _ _ c a)
  | st_long pref b q : up c = b :: q -> stepped c (CServe pref) (with_a _ _ _ c (set_frames _ _ _ q (down c) (cs_a c)))
  | st_end pref : cs_ended _ _ _ c = false -> cs_stopped _ _ _ c = true \/ c_out_alive (cs_client c) = false ->
      stepped c (CServe pref) (MkCSys _ _ _ (cs_a c) (cs_stopped _ _ _ c) true (cs_dropped _ _ _ c))
  | st_send pref who a r : a_step (fun _ _ _ => r) (match who with None => AResume | Some i => ASystem (STask i) end) (cs_a c) = Some a ->
      length (down c) < cap_down -> r = TxOk -> y_up (a_sys a) = up c -> length (y_down (a_sys a)) = S (length (down c)) -> y_client (a_sys a) = cs_client c -> (y_serving (a_sys (cs_a c)) = false -> y_serving (a_sys a) = false \/ who = None) ->
      stepped c (CSend pref who) (with_a _ _ _ c a)
  | st_unsent pref who a r : a_step (fun _ _ _ => r) (match who with None => AResume | Some i => ASystem (STask i) end) (cs_a c) = Some a ->
      y_up (a_sys a) = up c -> y_client (a_sys a) = cs_client c -> (y_serving (a_sys (cs_a c)) = false -> y_serving (a_sys a) = false \/ who = None) ->
      stepped c (CSend pref who) (with_a _ _ _ c (set_frames _ _ _ (up c) (down c) a))
  | st_stop : stepped c CStop (MkCSys _ _ _ (cs_a c) true (cs_ended _ _ _ c) (cs_dropped _ _ _ c))
  | st_drop : cs_ended _ _ _ c = true \/ y_serving (a_sys (cs_a c)) = false -> stepped c CDrop (MkCSys _ _ _ (cs_a c) (cs_stopped _ _ _ c) (cs_ended _ _ _ c) true).

  Lemma carry_same s p : y_up (a_sys (carry_on s p)) = y_up s /\ y_down (a_sys (carry_on s p)) = y_down s /\ y_client (a_sys (carry_on s p)) = y_client s.
  Proof. unfold AsyncModel.carry_on. destruct (settle _ _ _ _ _) as [[[ctx res]| | |] tr]; auto. Qed.
  Lemma send_same r who a a' : a_step (fun _ _ _ => r) (match who with None => AResume | Some i => ASystem (STask i) end) a = Some a' ->
    y_up (a_sys a') = y_up (a_sys a) /\ length (y_down (a_sys a')) = S (length (y_down (a_sys a))) /\ y_client (a_sys a') = y_client (a_sys a) /\
    (y_serving (a_sys a) = false -> y_serving (a_sys a') = false \/ who = None).
  Proof.
    destruct who as [i|]; cbn [AsyncModel.a_step SystemModel.sys_step].
    - destruct (nth_error _ _) as [[|key seq p k]|]; try discriminate. unfold send_keyed, tx_send. rewrite skipn_exact. intros [= <-]. cbn.
      rewrite app_length. cbn. split; auto. split; [lia|auto].
    - destruct (a_cur a) as [[| | |w h p k]|]; try discriminate. intros [= <-].
      edestruct carry_same as (-> & -> & ->). cbn [SystemModel.y_up SystemModel.y_down SystemModel.y_client]. rewrite app_length. cbn [length]. split; auto. split; [lia|auto].
  Qed.

  Lemma c_step_cases l c c' ce : c_step l c = Some (c', ce) -> stepped c l c'.
  Proof.
    intros H. destruct l as [l| | |pref|pref who| |]; cbn [ChanSysModel.c_step] in H.
    - assert (E : client_step l c = Some (c', ce) /\ l <> LInFail /\ l <> LOutSent /\ (forall b, l <> LOutFail b) /\ l <> LOutEnd true).
      { destruct l; try discriminate H; try (repeat split; (exact H || discriminate)). destruct reached; [discriminate|]. repeat split; (exact H || discriminate). }
      destruct E as (E & N1 & N2 & N3 & N4). destruct (client_some _ _ _ _ E) as (cl & e & Nr & Sx & -> & ->).
      pose proof (quiet_step _ _ _ _ _ Sx) as Q.
      assert (W : wire_of e = []). { destruct l; try exact Q; try congruence; destruct reached; try exact Q; congruence. }
      rewrite W, app_nil_r. eapply st_client; eauto.
    - destruct (snd _) eqn:Sn; try discriminate H; destruct (client_some _ _ _ _ H) as (cl & e & Nr & Sx & -> & ->); pose proof (quiet_step _ _ _ _ _ Sx) as Q.
      + apply st_sent; auto. apply send_ok in Sn as [_ L]. exact L.
      + cbn in Q. rewrite Q, app_nil_r. exact (st_fail _ _ _ _ Sx Q (or_introl eq_refl)).
    - unfold host_receive in H. cbn [down_for_client ch_queue ch_tx] in H. destruct (down c) as [|b q] eqn:D.
      + destruct (negb _); [|discriminate]. destruct (client_some _ _ _ _ H) as (cl & e & Nr & Sx & -> & ->). pose proof (quiet_step _ _ _ _ _ Sx) as Q. cbn in Q. rewrite Q, app_nil_r.
        exact (st_fail _ _ _ _ Sx Q (or_intror eq_refl)).
      + destruct (step cfg (LRecv b) _) as [[cl e]|] eqn:Sx; [|discriminate].
        destruct (AsyncModel.a_step _ _ _ _ _ _ _ _ _ _ _ _ _ _) as [a|] eqn:Sa; [|discriminate]. injection H as <- <-.
        cbn [AsyncModel.a_step SystemModel.sys_step] in Sa. rewrite D in Sa. cbn [nth_error] in Sa. rewrite Sx in Sa. injection Sa as <-. eapply st_recv; eauto.
    - destruct (a_cur (cs_a c)) as [|] eqn:Cu; [discriminate|]. destruct (y_serving _ && _)%bool eqn:V; [|discriminate]. apply andb_true_iff in V as [V1 V2]. apply negb_true_iff in V2.
      unfold chan_receive in H. cbn [up_for_server ch_stop ch_queue ch_tx ch_cap ch_rx] in H.
      destruct (_ && _)%bool eqn:P. { injection H as <- <-. apply andb_true_iff in P as [P _]. apply st_end; auto. }
      destruct (up c) as [|b q] eqn:U.
      + destruct (c_out_alive _) eqn:Ao; cbn [negb] in H.
        * pose proof (fun P => st_end c pref V2 (or_introl P)) as G.
          match type of H with context [if ?x then (_, CClosed) else _] => destruct x end; [|discriminate]. injection H as <- <-. apply G. reflexivity.
        * injection H as <- <-. apply st_end; auto.
      + destruct (length b <=? buf) eqn:L.
        * destruct (AsyncModel.a_step _ _ _ _ _ _ _ _ _ _ _ _ _ _) as [a|] eqn:Sa; [|discriminate]. injection H as <- <-.
          assert (E : y_up (a_sys a) = q /\ y_down (a_sys a) = down c /\ y_client (a_sys a) = cs_client c).
          { cbn [AsyncModel.a_step] in Sa. rewrite Cu, V1, U in Sa. cbn [nth_error remove_nth] in Sa. destruct (take_from_slice b) as [[[hd bd]|]|]; try discriminate; injection Sa as <-; [|auto].
            edestruct carry_same as (-> & -> & ->). auto. }
          destruct E as (E1 & E2 & E3). eapply st_serve; eauto.
        * injection H as <- <-. cbn [ch_queue]. eapply st_long; eauto.
    - destruct (snd _) eqn:Sn; [| |discriminate].
      + destruct (AsyncModel.a_step _ _ _ _ _ _ _ _ _ _ _ _ _ _) as [a|] eqn:Sa; [|discriminate]. injection H as <- <-. destruct (send_same _ _ _ _ Sa) as (E1 & E2 & E3 & E4).
        apply send_ok in Sn as [_ L]. eapply st_send; eauto.
      + destruct (AsyncModel.a_step _ _ _ _ _ _ _ _ _ _ _ _ _ _) as [a|] eqn:Sa; [|discriminate]. injection H as <- <-. destruct (send_same _ _ _ _ Sa) as (E1 & E2 & E3 & E4). eapply st_unsent; eauto.
    - injection H as <- <-. constructor.
    - destruct (_ || _)%bool eqn:O; [|discriminate]. injection H as <- <-. constructor. apply orb_true_iff in O as [O|O]; auto. apply negb_true_iff in O. auto.
  Qed.

  (** *** What always holds *)
  Record KInv (c : CSys) : Prop := {
    k_up : length (up c) <= cap_up;
    k_down : length (down c) <= cap_down;
    k_ok : a_ok (cs_a c);
    k_idle : y_serving (a_sys (cs_a c)) = false -> a_cur (cs_a c) = None;
    k_ended : cs_ended _ _ _ c = true -> a_cur (cs_a c) = None;
    k_why : cs_ended _ _ _ c = true -> cs_stopped _ _ _ c = true \/ c_out_alive (cs_client c) = false;
    k_dropped : cs_dropped _ _ _ c = true -> cs_ended _ _ _ c = true \/ y_serving (a_sys (cs_a c)) = false }.

  Lemma kinv_new ctx : KInv (csys_new _ _ _ bg ctx).
  Proof. clear. split; cbn; try apply Nat.le_0_l; try discriminate; auto. Qed.

  Lemma carry_idle s p : y_serving s = true -> y_serving (a_sys (carry_on s p)) = false -> a_cur (carry_on s p) = None.
  Proof. unfold AsyncModel.carry_on. intros V. destruct (settle _ _ _ _ _) as [[[ctx res]| | |] tr]; cbn; auto; congruence. Qed.

  Lemma out_alive_step l c c' e : step cfg l c = Some (c', e) -> c_out_alive c = false -> c_out_alive c' = false.
  Proof. intros H E. destruct (c_out_alive c') eqn:E'; auto. rewrite (step_out_alive _ _ _ _ _ H E') in E. discriminate. Qed.

  Lemma kinv_step l c c' ce : c_step l c = Some (c', ce) -> KInv c -> KInv c'.
  Proof.
    intros H [K1 K2 K3 K4 K5 K6 K7]. pose proof (c_step_cases _ _ _ _ H) as Cs.
    destruct Cs as [l cl e Nr Sx W N1 N2 N3 N4|cl e Sx L W|cl e l Sx W D|b q cl e D Sx|pref b q a U Sa E1 E2 E3|pref b q U|pref En Wy|pref who a r Sa L -> E1 E2 E3 E4|pref who a r Sa E1 E3 E4| |Dr].
    - split; unfold cs_client in *; cbn; auto. intros X. destruct (K6 X); eauto using out_alive_step.
    - split; unfold cs_client in *; cbn; auto. { rewrite app_length, W. lia. } intros X. destruct (K6 X); eauto using out_alive_step.
    - assert (G : KInv (with_a _ _ _ c (MkASys _ _ _ (MkSys _ _ _ cl (up c) (down c) (y_ctx _ _ _ (a_sys (cs_a c))) (y_trace (a_sys (cs_a c))) (y_tasks (a_sys (cs_a c))) (y_serving (a_sys (cs_a c)))) (a_cur (cs_a c))))); [|exact G].
      split; unfold cs_client in *; cbn; auto. intros X. destruct (K6 X); eauto using out_alive_step.
    - rewrite D in K2. cbn in K2. split; unfold cs_client in *; cbn; auto; [lia|]. intros X. destruct (K6 X); eauto using out_alive_step.
    - rewrite U in K1. cbn in K1. split; cbn; rewrite ?E1, ?E2; auto; [lia|..].
      + eapply a_step_ok; eauto.
      + cbn [AsyncModel.a_step] in Sa. destruct (a_cur (cs_a c)) eqn:Cu; [discriminate|]. destruct (y_serving (a_sys (cs_a c))) eqn:V; [|discriminate].
        rewrite U in Sa. cbn [nth_error] in Sa. destruct (take_from_slice b) as [[[hd bd]|]|]; try discriminate; injection Sa as <-; [apply carry_idle; reflexivity|auto].
      + intros X. exfalso. clear - X H U Sa. cbn [ChanSysModel.c_step] in H. destruct (a_cur (cs_a c)); [discriminate|]. rewrite X in H. rewrite andb_false_r in H. discriminate.
      + unfold cs_client. cbn. rewrite E3. exact K6.
      + intros X. destruct (K7 X) as [Y|Y]; auto. cbn [AsyncModel.a_step] in Sa. destruct (a_cur (cs_a c)); [discriminate|]. rewrite Y in Sa. discriminate.
    - rewrite U in K1. cbn in K1. split; cbn; auto; try lia.
    - split; cbn; auto. intros _. cbn [ChanSysModel.c_step] in H. destruct (a_cur (cs_a c)); [discriminate|reflexivity].
    - assert (Cu : who = None -> a_cur (cs_a c) <> None). { intros ->. cbn [AsyncModel.a_step] in Sa. destruct (a_cur (cs_a c)); [discriminate|discriminate]. }
      split; cbn; rewrite ?E1, ?E2; auto.
      + eapply a_step_ok; eauto.
      + destruct who as [i|]; cbn [AsyncModel.a_step SystemModel.sys_step] in Sa.
        * destruct (nth_error _ _) as [[|key seq p k]|]; try discriminate. destruct (send_keyed _ _ _ _ _ _ _ _ _). injection Sa as <-. exact K4.
        * destruct (a_cur (cs_a c)) as [[| | |w h p k]|] eqn:Cu'; try discriminate. injection Sa as <-. apply carry_idle. cbn. destruct (y_serving (a_sys (cs_a c))); auto. specialize (K4 eq_refl). discriminate.
      + intros X. specialize (K5 X). destruct who as [i|]; [|destruct (Cu eq_refl K5)]. cbn [AsyncModel.a_step SystemModel.sys_step] in Sa. destruct (nth_error _ _) as [[|key seq p k]|]; try discriminate. destruct (send_keyed _ _ _ _ _ _ _ _ _). injection Sa as <-. exact K5.
      + unfold cs_client. cbn. rewrite E3. exact K6.
      + intros X. destruct (K7 X) as [Y|Y]; auto. destruct (E4 Y) as [Z|Z]; auto. destruct (Cu Z (K4 Y)).
    - assert (Cu : who = None -> a_cur (cs_a c) <> None). { intros ->. cbn [AsyncModel.a_step] in Sa. destruct (a_cur (cs_a c)); [discriminate|discriminate]. }
      split; cbn; auto.
      + pose proof (a_step_ok _ _ _ _ _ _ _ _ _ _ _ _ Sa K3) as G. exact G.
      + destruct who as [i|]; cbn [AsyncModel.a_step SystemModel.sys_step] in Sa.
        * destruct (nth_error _ _) as [[|key seq p k]|]; try discriminate. destruct (send_keyed _ _ _ _ _ _ _ _ _). injection Sa as <-. exact K4.
        * destruct (a_cur (cs_a c)) as [[| | |w h p k]|] eqn:Cu'; try discriminate. injection Sa as <-. apply carry_idle. cbn. destruct (y_serving (a_sys (cs_a c))); auto. specialize (K4 eq_refl). discriminate.
      + intros X. specialize (K5 X). destruct who as [i|]; [|destruct (Cu eq_refl K5)]. cbn [AsyncModel.a_step SystemModel.sys_step] in Sa. destruct (nth_error _ _) as [[|key seq p k]|]; try discriminate. destruct (send_keyed _ _ _ _ _ _ _ _ _). injection Sa as <-. exact K5.
      + unfold cs_client. cbn. rewrite E3. exact K6.
      + intros X. destruct (K7 X) as [Y|Y]; auto. destruct (E4 Y) as [Z|Z]; auto. destruct (Cu Z (K4 Y)).
    - split; cbn; auto.
    - split; cbn; auto.
  Qed.
  Lemma kinv_run ls : forall c c' cl es, c_run ls c = Some (c', cl, es) -> KInv c -> KInv c'.
  Proof.
    induction ls as [|l ls IH]; intros c c' cl es H K; cbn [ChanSysModel.c_run] in H; [injection H as <- _ _; auto|].
    destruct (c_step l c) as [[c1 ce]|] eqn:St; [|discriminate]. destruct (c_run ls c1) as [[[c2 cl2] es2]|] eqn:R; [|discriminate].
    assert (c2 = c') by (destruct ce as [[? ?]|]; congruence). subst c2. eapply IH; eauto. eapply kinv_step; eauto.
  Qed.

  (** *** The steps end *)
  Definition b2n (b : bool) : nat := if b then 1 else 0.
  Definition m_alive (c : CSys) : nat := b2n (c_in_alive (cs_client c)) + b2n (c_out_alive (cs_client c)) + b2n (negb (cs_ended _ _ _ c)).
  Definition c_less (c' c : CSys) : Prop := m_alive c' < m_alive c \/ (m_alive c' = m_alive c /\ less (as_task (cs_a c')) (as_task (cs_a c))).
  Lemma c_less_wf : well_founded c_less.
  Proof.
    clear. enough (G : forall n s, Acc less s -> forall c, m_alive c = n -> as_task (cs_a c) = s -> Acc c_less c).
    { intros c. exact (G _ _ (less_wf _) c eq_refl eq_refl). }
    induction n as [n I1] using lt_wf_ind. intros s A. induction A as [s _ I2]. intros c E1 E2. constructor. intros c' [L|[E L]].
    - eapply I1; [|apply less_wf|reflexivity|reflexivity]. lia.
    - eapply I2; [rewrite <- E2; exact L|lia|reflexivity].
  Qed.

  Lemma own_a_less r l a a' : a_ok a -> a_own_step l = true -> a_step (fun _ _ _ => r) l a = Some a' -> less (as_task a') (as_task a).
  Proof. intros Ha Ho Sa. eapply (a_own_less std kkind spawn_ctxt d enc task cfg (fun _ _ _ => r) can_spawn). split; [exact Ha|]. eauto. Qed.

  Lemma alive_step l c c' e : step cfg l c = Some (c', e) ->
    b2n (c_in_alive c') + b2n (c_out_alive c') <= b2n (c_in_alive c) + b2n (c_out_alive c) /\
    (FInv c -> l = LInEnd \/ (exists r, l = LOutEnd r) \/ l = LInFail \/ (exists r, l = LOutFail r) -> b2n (c_in_alive c') + b2n (c_out_alive c') < b2n (c_in_alive c) + b2n (c_out_alive c)).
  Proof.
    intros H. split.
    - assert (b2n (c_in_alive c') <= b2n (c_in_alive c)). { destruct (c_in_alive c') eqn:E; [rewrite (step_in_alive _ _ _ _ _ H E); auto|destruct (c_in_alive c); cbn; lia]. }
      assert (b2n (c_out_alive c') <= b2n (c_out_alive c)). { destruct (c_out_alive c') eqn:E; [rewrite (step_out_alive _ _ _ _ _ H E); auto|destruct (c_out_alive c); cbn; lia]. }
      lia.
    - intros (F1 & F2 & F3 & F4 & F5 & F6) D. destruct D as [-> |[(r & ->)|[-> |(r & ->)]]]; cbn [step] in H.
      + destruct (c_stopped c); [|discriminate]. destruct (c_in_alive c); [|discriminate]. injection H as <- <-. cbn. lia.
      + destruct (c_stopped c); [|discriminate]. destruct (c_out_alive c) eqn:O; [|discriminate]. injection H as <- <-. cbn. lia.
      + destruct (c_offer c); [discriminate|]. destruct (c_in_alive c); [|discriminate]. destruct (blocked _); [discriminate|]. injection H as <- <-. cbn. lia.
      + destruct (c_out_alive c) eqn:O; [|destruct (F4 eq_refl) as [_ X]; rewrite X in H; discriminate]. destruct (c_sending c); [|discriminate]. injection H as <- <-. cbn. lia.
  Qed.

  Lemma own_c_less l c c' ce : KInv c -> FInv (cs_client c) -> c_own_step l = true -> c_step l c = Some (c', ce) -> c_less c' c.
  Proof.
    intros K F Ho H. pose proof (k_ok _ K) as Ha. pose proof (c_step_cases _ _ _ _ H) as Cs. unfold c_less.
    assert (Le : forall n, n <= m_alive c -> forall P : Prop, P -> n < m_alive c \/ (n = m_alive c /\ P)) by (intros; lia || (destruct (Nat.eq_dec n (m_alive c)); [right|left; lia]; auto)).
    assert (Cl : forall x cl e, step cfg x (cs_client c) = Some (cl, e) -> (forall b, x <> LRecv b) -> own_step (SClient x) = true ->
      forall c2, cs_a c2 = MkASys _ _ _ (MkSys _ _ _ cl (up c ++ wire_of e) (down c) (y_ctx _ _ _ (a_sys (cs_a c))) (y_trace (a_sys (cs_a c))) (y_tasks (a_sys (cs_a c))) (y_serving (a_sys (cs_a c)))) (a_cur (cs_a c)) ->
      cs_ended _ _ _ c2 = cs_ended _ _ _ c -> m_alive c2 < m_alive c \/ (m_alive c2 = m_alive c /\ less (as_task (cs_a c2)) (as_task (cs_a c)))).
    { intros x cl e Sx Nr Hx c2 E2 E3. apply Le.
      - unfold m_alive, cs_client. rewrite E2, E3. cbn [AsyncModel.a_sys SystemModel.y_client]. destruct (alive_step _ _ _ _ Sx) as (L & _). unfold cs_client in L. lia.
      - rewrite E2. eapply (own_a_less TxOk (ASystem (SClient x))); [exact Ha|exact Hx|]. rewrite (a_client _ _ Nr). unfold cs_client in Sx. rewrite Sx. reflexivity. }
    assert (Dn : forall x cl e, step cfg x (cs_client c) = Some (cl, e) -> x = LInEnd \/ (exists r, x = LOutEnd r) \/ x = LInFail \/ (exists r, x = LOutFail r) ->
      forall c2, cs_client c2 = cl -> cs_ended _ _ _ c2 = cs_ended _ _ _ c -> m_alive c2 < m_alive c).
    { intros x cl e Sx D c2 E2 E3. unfold m_alive. rewrite E2, E3. destruct (alive_step _ _ _ _ Sx) as (_ & L). specialize (L F D). lia. }
    destruct Cs as [l cl e Nr Sx W N1 N2 N3 N4|cl e Sx L W|cl e l Sx W D|b q cl e D Sx|pref b q a U Sa E1 E2 E3|pref b q U|pref En Wy|pref who a r Sa L -> E1 E2 E3 E4|pref who a r Sa E1 E3 E4| |Dr]; try discriminate Ho.
    - assert (D : own_step (SClient l) = true \/ l = LInEnd \/ exists r, l = LOutEnd r) by (destruct l; auto; right; right; eauto).
      destruct D as [D|D].
      + eapply Cl; [exact Sx|exact Nr|exact D| |reflexivity]. cbn. rewrite W, app_nil_r. reflexivity.
      + left. eapply Dn; [exact Sx|tauto|reflexivity|reflexivity].
    - eapply Cl; [exact Sx|discriminate|reflexivity|reflexivity|reflexivity].
    - left. eapply (Dn l); [exact Sx|destruct D as [-> | ->]; eauto|reflexivity|reflexivity].
    - apply Le.
      + unfold m_alive, cs_client. cbn [with_a ChanSysModel.cs_a ChanSysModel.cs_ended AsyncModel.a_sys SystemModel.y_client]. destruct (alive_step _ _ _ _ Sx) as (L & _). unfold cs_client in L. lia.
      + eapply (own_a_less TxOk (ASystem (SRecv 0))); [exact Ha|reflexivity|]. cbn [AsyncModel.a_step SystemModel.sys_step]. rewrite D. cbn [nth_error]. unfold cs_client in Sx. rewrite Sx. reflexivity.
    - apply Le.
      + unfold m_alive, cs_client. cbn [with_a ChanSysModel.cs_a ChanSysModel.cs_ended]. rewrite E3. unfold cs_client. lia.
      + eapply (own_a_less TxOk (ASystem (SServe 0))); [exact Ha|reflexivity|exact Sa].
    - apply Le; [unfold m_alive, cs_client; cbn; lia|]. left. unfold m1, as_task. cbn [with_a ChanSysModel.cs_a set_frames AsyncModel.a_sys SystemModel.y_client SystemModel.y_up]. rewrite U. cbn. lia.
    - left. unfold m_alive, cs_client. cbn. rewrite En. cbn. lia.
    - apply Le.
      + unfold m_alive, cs_client. cbn [with_a ChanSysModel.cs_a ChanSysModel.cs_ended]. rewrite E3. unfold cs_client. lia.
      + eapply (own_a_less TxOk _); [exact Ha| |exact Sa]. destruct who; reflexivity.
    - apply Le.
      + unfold m_alive, cs_client. cbn [with_a set_frames ChanSysModel.cs_a ChanSysModel.cs_ended AsyncModel.a_sys SystemModel.y_client]. rewrite E3. unfold cs_client. lia.
      + assert (Lx : less (as_task a) (as_task (cs_a c))) by (eapply (own_a_less r _); [exact Ha| |exact Sa]; destruct who; reflexivity).
        destruct (send_same _ _ _ _ Sa) as (_ & Ed & _). unfold less, m1, m2, m3, as_task in *.
        cbn [with_a set_frames ChanSysModel.cs_a AsyncModel.a_sys AsyncModel.a_cur SystemModel.y_client SystemModel.y_up SystemModel.y_tasks SystemModel.y_down] in *. rewrite E1 in Lx. lia.
  Qed.

  (** *** At rest *)
  Lemma client_rest_ended c : c_stopped c = true -> FInv c -> CInv cfg c -> (forall l, own_step (SClient l) = true \/ l = LInEnd \/ l = LOutEnd false -> l <> LOutSent -> step cfg l c = None) ->
    c_in_alive c = false /\ c_out_alive c = false /\ (forall r q, nth_error (c_reqs c) r = Some q -> rq_pc q = PEnded) /\ forall i f, nth_error (c_pubs c) i <> Some (Some f).
  Proof.
    intros St (F1 & F2 & F3 & F4 & F5 & F6) HI H.
    assert (Ai : c_in_alive c = false). { destruct (c_in_alive c) eqn:E; auto. specialize (H LInEnd). cbn [step] in H. rewrite St, E in H. cbn in H. exfalso. discriminate H; auto. discriminate. }
    assert (Ao : c_out_alive c = false). { destruct (c_out_alive c) eqn:E; auto. specialize (H (LOutEnd false)). cbn [step] in H. rewrite St, E in H. cbn in H. exfalso. discriminate H; auto. discriminate. }
    split; auto. split; auto. split.
    - intros r q Hq. destruct (rq_pc q) eqn:P; auto; exfalso.
      + specialize (H (LKind r)). cbn [step] in H. rewrite Hq, P in H. discriminate H; auto. discriminate.
      + specialize (H (LEnqOk r)). cbn [step] in H. rewrite Hq, P in H. destruct (is_duplicate _ _) in H; discriminate H; auto; discriminate.
      + specialize (H (LEnqErr r)). cbn [step] in H. rewrite Hq, P in H. destruct (is_duplicate _ _) in H; discriminate H; auto; discriminate.
      + specialize (H (LSend r)). cbn [step] in H. rewrite Hq, P, Ao in H. cbn in H. discriminate H; auto; discriminate.
      + specialize (H (LTakeClosed r)). cbn [step] in H. rewrite Hq, P, St in H. discriminate H; auto; discriminate.
    - intros i f Hf. specialize (H (LPubClosed i)). cbn [step] in H. rewrite Hf, St in H. discriminate H; auto; discriminate.
  Qed.

  Section Rest.
    Variable c : CSys.
    Hypothesis K : KInv c.
    Hypothesis F : FInv (cs_client c).
    Hypothesis HI : CInv cfg (cs_client c).
    Hypothesis Hup : 0 < cap_up.
    Hypothesis Hdown : 0 < cap_down.
    Hypothesis Hrest : forall l, c_own_step l = true -> c_step l c = None.

    Lemma rest_client l : own_step (SClient l) = true \/ l = LInEnd \/ l = LOutEnd false -> l <> LOutSent -> step cfg l (cs_client c) = None.
    Proof.
      intros Ho Ns. assert (Nr : forall b, l <> LRecv b) by (intros b ->; destruct Ho as [X|[X|X]]; discriminate).
      apply client_none; auto.
      assert (O : c_own_step (CClient l) = true) by (destruct Ho as [X|[-> | ->]]; auto; destruct l; auto).
      pose proof (Hrest _ O) as R. destruct Ho as [X|[-> | ->]]; [|exact R|exact R].
      destruct l; try discriminate X; try exact R. congruence.
    Qed.
    Lemma rest_idle : c_in_alive (cs_client c) = true -> c_offer (cs_client c) = None /\ blocked (c_subs (cs_client c)) = false /\ down c = [] /\ sender_left _ _ _ c = true.
    Proof.
      intros Ai. destruct (idle_receives cfg _ F HI Ai) as (O & B & R).
      { intros ch. apply rest_client; [auto|discriminate]. } { intros w. apply rest_client; [auto|discriminate]. }
      split; auto. split; auto. pose proof (Hrest CRecv eq_refl) as X. cbn [ChanSysModel.c_step] in X. unfold host_receive in X. cbn [down_for_client ch_queue ch_tx] in X.
      destruct (down c) as [|b q] eqn:D.
      - split; auto. destruct (sender_left _ _ _ c); auto. cbn [negb] in X. apply client_none in X; [|discriminate]. cbn [step] in X. rewrite O, Ai, B in X. discriminate.
      - exfalso. destruct (R b) as (cl & e & E). unfold cs_client in E. rewrite E in X. cbn [AsyncModel.a_step SystemModel.sys_step] in X. rewrite D in X. cbn [nth_error] in X. rewrite E in X. discriminate.
    Qed.
    Lemma rest_sends : snd (chan_send false [] (down_for_server _ _ _ cap_down c)) <> SendWaiting.
    Proof.
      intros W. apply send_waits in W as (A & _ & L). cbn in A, L. destruct (rest_idle A) as (_ & _ & D & _). rewrite D in L. cbn in L. lia.
    Qed.
    Lemma rest_cur : a_cur (cs_a c) = None.
    Proof.
      destruct (a_cur (cs_a c)) as [p|] eqn:Cu; auto. exfalso. pose proof (k_ok _ K) as A. unfold a_ok in A. rewrite Cu in A. destruct A as [_ A]. destruct p as [| | |w h p k]; try destruct A.
      pose proof (Hrest (CSend false None) eq_refl) as X. cbn [ChanSysModel.c_step AsyncModel.a_step] in X. rewrite Cu in X. destruct (snd _) eqn:Sn; [discriminate|discriminate|]. exact (rest_sends Sn).
    Qed.
    Lemma rest_tasks : tasks_done c.
    Proof.
      apply Forall_forall. intros t Ht. apply In_nth_error in Ht as (i & Ht). destruct t as [[]|key seq p k]; auto. exfalso.
      pose proof (Hrest (CSend false (Some i)) eq_refl) as X. cbn [ChanSysModel.c_step AsyncModel.a_step SystemModel.sys_step] in X. rewrite Ht in X. unfold send_keyed, tx_send in X. destruct (snd _) eqn:Sn; [discriminate|discriminate|]. exact (rest_sends Sn).
    Qed.
    Lemma rest_run : run_returned c \/ (y_serving (a_sys (cs_a c)) = true /\ cs_ended _ _ _ c = false /\ cs_stopped _ _ _ c = false /\ c_out_alive (cs_client c) = true /\ up c = []).
    Proof.
      unfold run_returned. rewrite rest_cur. destruct (y_serving (a_sys (cs_a c))) eqn:V; [|auto]. destruct (cs_ended _ _ _ c) eqn:E; [auto|]. right. split; auto. split; auto.
      pose proof (Hrest (CServe false) eq_refl) as X. cbn [ChanSysModel.c_step] in X. rewrite rest_cur, V, E in X. cbn [negb andb] in X.
      unfold chan_receive in X. cbn [up_for_server ch_stop ch_queue ch_tx] in X. rewrite andb_false_r in X. destruct (up c) as [|b q] eqn:U.
      - fold (cs_client c) in X. destruct (c_out_alive (cs_client c)); [|discriminate]. cbn [negb] in X. destruct (cs_stopped _ _ _ c); [discriminate|auto].
      - exfalso. destruct (length b <=? buf); [|discriminate]. cbn [AsyncModel.a_step] in X. rewrite rest_cur, V, U in X. cbn [nth_error] in X.
        destruct (take_defined b) as ([[h bd]|] & Et); rewrite Et in X; discriminate.
    Qed.
    Lemma rest_dropped : cs_dropped _ _ _ c = true -> c_stopped (cs_client c) = true.
    Proof.
      intros D. destruct F as (F1 & F2 & _). apply F2. destruct (c_in_alive (cs_client c)) eqn:Ai; auto. destruct (rest_idle Ai) as (_ & _ & _ & S1).
      unfold sender_left in S1. rewrite D in S1. cbn in S1. apply existsb_exists in S1 as (t & Ht & X). pose proof rest_tasks as T. unfold tasks_done in T. rewrite Forall_forall in T. rewrite (T _ Ht) in X. discriminate.
    Qed.
    Lemma rest_closed : c_stopped (cs_client c) = true ->
      c_in_alive (cs_client c) = false /\ c_out_alive (cs_client c) = false /\ (forall r q, nth_error (c_reqs (cs_client c)) r = Some q -> rq_pc q = PEnded) /\ (forall i f, nth_error (c_pubs (cs_client c)) i <> Some (Some f)) /\ run_returned c.
    Proof.
      intros St. destruct (client_rest_ended _ St F HI rest_client) as (A & B & R & P). split; auto. split; auto. split; auto. split; auto.
      destruct rest_run as [X|(_ & _ & _ & X & _)]; auto. congruence.
    Qed.
    (** A server that still runs, and a client: the system of AsyncModel.v is at rest. *)
    Lemma rest_rest' net l : ~ run_returned c -> a_own_step l = true -> a_step net l (cs_a c) = None.
    Proof.
      intros Nr Ho. destruct rest_run as [X|(V & En & Sp & Ao & U)]; [contradiction|].
      destruct l as [l|]; [|cbn [AsyncModel.a_step]; rewrite rest_cur; reflexivity].
      destruct l as [l|i|i|i|i|i|i n|i]; try discriminate Ho.
      - assert (Nl : forall b, l <> LRecv b) by (intros b ->; discriminate Ho).
        assert (G : step cfg l (cs_client c) = None).
        { assert (D : l = LOutSent \/ l <> LOutSent) by (destruct l; auto; right; discriminate). destruct D as [-> |D]; [|apply rest_client; auto].
          pose proof (Hrest COut eq_refl) as X. cbn [ChanSysModel.c_step] in X. unfold chan_send in X. cbn [up_for_client ch_stop ch_rx ch_queue ch_cap andb] in X. rewrite U in X.
          assert (Dr : cs_dropped _ _ _ c = false). { destruct (cs_dropped _ _ _ c) eqn:Dr; auto. destruct (k_dropped _ K Dr); congruence. }
          rewrite Dr in X. cbn [negb length] in X. destruct (0 <? cap_up) eqn:E; [|apply Nat.ltb_ge in E; lia]. cbn [snd] in X. apply client_none in X; [exact X|discriminate]. }
        cbn [AsyncModel.a_step SystemModel.sys_step]. unfold cs_client in G. rewrite G. destruct l; try reflexivity. 
      - cbn [AsyncModel.a_step SystemModel.sys_step]. destruct (c_in_alive (cs_client c)) eqn:Ai.
        + destruct (rest_idle Ai) as (_ & _ & D & _). rewrite D. destruct i; reflexivity.
        + destruct (nth_error _ _); [|reflexivity]. cbn [step]. unfold cs_client in Ai. rewrite Ai. destruct (c_offer _); reflexivity.
      - cbn [AsyncModel.a_step]. rewrite rest_cur, V, U. destruct i; reflexivity.
      - cbn [AsyncModel.a_step SystemModel.sys_step]. destruct (nth_error (y_tasks (a_sys (cs_a c))) i) as [t|] eqn:Nt; [|reflexivity].
        pose proof rest_tasks as T. unfold tasks_done in T. rewrite Forall_forall in T. rewrite (T _ (nth_error_In _ _ Nt)). reflexivity.
    Qed.
  End Rest.

  (** *** A channel fails only when its other end is gone *)
  Lemma fails_step l c c' ce : c_step l c = Some (c', ce) -> (cs_dropped _ _ _ c = true -> cs_dropped _ _ _ c' = true) /\
    match ce with Some (x, _) => (x = LInFail \/ (exists b, x = LOutFail b)) -> cs_dropped _ _ _ c = true | None => True end.
  Proof.
    intros H. split.
    - pose proof (c_step_cases _ _ _ _ H) as Cs. destruct Cs; auto.
    - destruct ce as [[x e]|]; auto. intros D. destruct l as [l| | |pref|pref who| |]; cbn [ChanSysModel.c_step] in H.
      + assert (E : client_step l c = Some (c', Some (x, e)) /\ l <> LInFail /\ (forall b, l <> LOutFail b)).
        { destruct l; try discriminate H; try (repeat split; (exact H || discriminate)). destruct reached; [discriminate|]. repeat split; (exact H || discriminate). }
        destruct E as (E & N1 & N2). destruct (client_some _ _ _ _ E) as (? & ? & _ & _ & _ & [= -> ->]). destruct D as [-> |(b & ->)]; [congruence|destruct (N2 _ eq_refl)].
      + destruct (snd _) eqn:Sn; try discriminate H; destruct (client_some _ _ _ _ H) as (? & ? & _ & _ & _ & [= -> ->]).
        * destruct D as [D|(b & D)]; discriminate.
        * apply send_closed in Sn as [X|X]; cbn in X; [discriminate|]. now apply negb_false_iff in X.
      + unfold host_receive in H. cbn [down_for_client ch_queue ch_tx] in H. destruct (down c) as [|b q].
        * destruct (sender_left _ _ _ c) eqn:Sl; [discriminate|]. unfold sender_left in Sl. apply orb_false_iff in Sl as [X _]. now apply negb_false_iff in X.
        * destruct (step cfg (LRecv b) _) as [[cl e']|]; [|discriminate]. destruct (AsyncModel.a_step _ _ _ _ _ _ _ _ _ _ _ _ _ _); [|discriminate]. injection H as <- <- <-. destruct D as [D|(b' & D)]; discriminate.
      + destruct (a_cur _); [discriminate|]. destruct (_ && _)%bool; [|discriminate]. destruct (chan_receive _ _ _) as [? []]; try discriminate. destruct (AsyncModel.a_step _ _ _ _ _ _ _ _ _ _ _ _ _ _); discriminate.
      + destruct (snd _); try discriminate; destruct (AsyncModel.a_step _ _ _ _ _ _ _ _ _ _ _ _ _ _); discriminate.
      + discriminate.
      + destruct (_ || _)%bool; discriminate.
  Qed.
  Lemma fails_run ls : forall c c' cl es, c_run ls c = Some (c', cl, es) -> (cs_dropped _ _ _ c = true -> cs_dropped _ _ _ c' = true) /\
    (cs_dropped _ _ _ c' = false -> forall x, In x cl -> x <> LInFail /\ forall b, x <> LOutFail b).
  Proof.
    induction ls as [|l ls IH]; intros c c' cl es H; cbn [ChanSysModel.c_run] in H; [injection H as <- <- _; split; auto; intros _ x []|].
    destruct (c_step l c) as [[c1 ce]|] eqn:St; [|discriminate]. destruct (c_run ls c1) as [[[c2 cl2] es2]|] eqn:R; [|discriminate].
    assert (c2 = c' /\ cl = labs ce ++ cl2) as (-> & ->) by (destruct ce as [[? ?]|]; injection H as <- <- <-; auto).
    destruct (IH _ _ _ _ R) as (A & B). destruct (fails_step _ _ _ _ St) as (A' & B'). split; [auto|]. intros D x Hx. apply in_app_iff in Hx as [Hx|Hx]; [|auto].
    destruct ce as [[y e]|]; [|destruct Hx]. destruct Hx as [->|[]].
    assert (N : cs_dropped _ _ _ c = false) by (destruct (cs_dropped _ _ _ c) eqn:E; auto; rewrite (A (A' eq_refl)) in D; discriminate).
    split; [intros ->|intros b ->]; rewrite B' in N; eauto; discriminate.
  Qed.

  (** *** The client is told that the server is gone when nothing more can come *)
  Definition gone (c : CSys) : Prop :=
    cs_dropped _ _ _ c = true /\ Forall (fun t => t = HRet tt) (y_tasks (a_sys (cs_a c))) /\ down c = [].
  Lemma gone_step l c c' ce : KInv c -> gone c -> c_step l c = Some (c', ce) -> gone c'.
  Proof.
    intros [_ _ _ K4 K5 _ K7] (Dr & Ta & Do) H. pose proof (c_step_cases _ _ _ _ H) as Cs.
    assert (Cu : a_cur (cs_a c) = None) by (destruct (K7 Dr); auto).
    assert (Ns : forall net who a, a_step net (match who with None => AResume | Some i => ASystem (STask i) end) (cs_a c) = Some a -> False).
    { intros net [i|] a Sa; cbn [AsyncModel.a_step SystemModel.sys_step] in Sa; [|rewrite Cu in Sa; discriminate].
      destruct (nth_error _ i) as [t|] eqn:N; [|discriminate]. rewrite Forall_forall in Ta. rewrite (Ta _ (nth_error_In _ _ N)) in Sa. discriminate. }
    assert (Nv : forall pref, l <> CServe pref).
    { intros pref ->. cbn [ChanSysModel.c_step] in H. rewrite Cu in H. destruct (K7 Dr) as [E|E]; rewrite E in H; rewrite ?andb_false_r in H; discriminate. }
    destruct Cs as [l cl e Nr Sx W N1 N2 N3 N4|cl e Sx L W|cl e l Sx W D|b q cl e D Sx|pref b q a U Sa E1 E2 E3|pref b q U|pref En Wy|pref who a r Sa L -> E1 E2 E3 E4|pref who a r Sa E1 E3 E4| |D].
    - repeat split; auto.
    - repeat split; auto.
    - repeat split; auto.
    - rewrite Do in D. discriminate.
    - destruct (Nv _ eq_refl).
    - destruct (Nv _ eq_refl).
    - destruct (Nv _ eq_refl).
    - destruct (Ns _ _ _ Sa).
    - destruct (Ns _ _ _ Sa).
    - repeat split; auto.
    - repeat split; auto.
  Qed.
  Lemma gone_when l c c' e : c_step l c = Some (c', Some (LInFail, e)) -> gone c /\ gone c'.
  Proof.
    intros H. destruct l as [l| | |pref|pref who| |]; cbn [ChanSysModel.c_step] in H.
    - assert (E : client_step l c = Some (c', Some (LInFail, e)) /\ l <> LInFail).
      { destruct l; try discriminate H; try (repeat split; (exact H || discriminate)). destruct reached; [discriminate|]. repeat split; (exact H || discriminate). }
      destruct E as (E & N1). destruct (client_some _ _ _ _ E) as (? & ? & _ & _ & _ & [= <- ->]). congruence.
    - destruct (snd _) eqn:Sn; try discriminate H; destruct (client_some _ _ _ _ H) as (? & ? & _ & _ & _ & [=]).
    - unfold host_receive in H. cbn [down_for_client ch_queue ch_tx] in H. destruct (down c) as [|b q] eqn:Do.
      + destruct (sender_left _ _ _ c) eqn:Sl; [discriminate|]. unfold sender_left in Sl. apply orb_false_iff in Sl as [X Y]. apply negb_false_iff in X.
        assert (T : Forall (fun t => t = HRet tt) (y_tasks (a_sys (cs_a c)))).
        { apply Forall_forall. intros t It. rewrite <- not_true_iff_false in Y. destruct t as [[]|k q0 p0 k0]; [reflexivity|]. exfalso. apply Y. apply existsb_exists. eexists. split; [exact It|reflexivity]. }
        destruct (client_some _ _ _ _ H) as (? & ? & _ & _ & -> & _). split; repeat split; auto.
      + destruct (step cfg (LRecv b) _) as [[cl e']|]; [|discriminate]. destruct (AsyncModel.a_step _ _ _ _ _ _ _ _ _ _ _ _ _ _); [|discriminate]. discriminate.
    - destruct (a_cur _); [discriminate|]. destruct (_ && _)%bool; [|discriminate]. destruct (chan_receive _ _ _) as [? []]; try discriminate. destruct (AsyncModel.a_step _ _ _ _ _ _ _ _ _ _ _ _ _ _); discriminate.
    - destruct (snd _); try discriminate; destruct (AsyncModel.a_step _ _ _ _ _ _ _ _ _ _ _ _ _ _); discriminate.
    - discriminate.
    - destruct (_ || _)%bool; discriminate.
  Qed.
  Lemma gone_run ls : forall c c' cl es, KInv c -> c_run ls c = Some (c', cl, es) -> gone c \/ In LInFail cl -> gone c'.
  Proof.
    induction ls as [|l ls IH]; intros c c' cl es K H; cbn [ChanSysModel.c_run] in H; [injection H as <- <- _; intros [G|[]]; exact G|].
    destruct (c_step l c) as [[c1 ce]|] eqn:St; [|discriminate]. destruct (c_run ls c1) as [[[c2 cl2] es2]|] eqn:R; [|discriminate].
    assert (c2 = c' /\ cl = labs ce ++ cl2) as (-> & ->) by (destruct ce as [[? ?]|]; injection H as <- <- <-; auto).
    intros D. eapply IH; [eapply kinv_step; eauto|exact R|]. destruct D as [G|D]; [left; eapply gone_step; eauto|].
    apply in_app_iff in D as [D|D]; [|auto]. left. destruct ce as [[y e]|]; [|destruct D]. destruct D as [-> |[]]. apply (gone_when _ _ _ _ St).
  Qed.
End L.
