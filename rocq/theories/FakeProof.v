(** Lemmas for FakeThm.v. *)
From Coq Require Import NArith List Bool Arith Lia.
From Verif Require Import KeyModel HeaderModel KeySpec HeaderSpec KeyProof HeaderProof SubModel SubSpec SubProof
  ClientModel ClientSpec ClientProof ClientHist ClientMore ClientOut ClientThm ClientThm3 DispatchModel SystemModel LiveSpec LiveProof ChanSysLive FakeModel FakeSpec.
Import ListNotations.

Lemma wire_wire_of es : wire es = flat_map wire_of es.
Proof. unfold wire. induction es as [|e es IH]; auto. cbn. rewrite flat_map_app, IH. reflexivity. Qed.
Lemma received_app a b : received (a ++ b) = received a ++ received b.
Proof. apply flat_map_app. Qed.
Lemma got_app a b : got (a ++ b) = got a ++ got b.
Proof. apply flat_map_app. Qed.
Lemma sent_app a b : sent (a ++ b) = sent a ++ sent b.
Proof. apply flat_map_app. Qed.

Section F.
  Variable bound : nat.
  Variable err_key : Key8.
  Variable no_wait : bool.
  Notation cfg := (fake_cfg bound err_key no_wait).
  Notation f_step := (f_step bound err_key no_wait).
  Notation f_run := (f_run bound err_key no_wait).

  Definition clab (ce : option (Label * list Ev)) : list Label := match ce with Some (x, _) => [x] | None => [] end.
  Definition cevs (ce : option (Label * list Ev)) : list (list Ev) := match ce with Some (_, e) => [e] | None => [] end.

  (** What one step does. *)
  Inductive fstepped (s : Fake) : FLabel -> Fake -> option (Label * list Ev) -> option FakeEv -> Prop :=
  | fs_client l c e : step cfg l (fk_client s) = Some (c, e) -> wire_of e = [] ->
      (forall b, l <> LRecv b) -> l <> LInFail -> l <> LOutSent -> (forall b, l <> LOutFail b) -> l <> LOutEnd true ->
      fstepped s (FClient l) (with_client s c) (Some (l, e)) None
  | fs_start f : c_sending (fk_client s) = Some f -> fk_sending s = false -> fk_fatal s = false ->
      fstepped s FSendStart (set_sending true s) None None
  | fs_out f p c e : c_sending (fk_client s) = Some f -> step cfg LOutSent (fk_client s) = Some (c, e) -> fk_sending s = true -> fk_gone s = false ->
      length (fk_up s) < bound -> wire_of e = [rpc_to_bytes f] ->
      fstepped s (FSendEnd p) (set_sending false (set_up (fk_up s ++ [rpc_to_bytes f]) (with_client s c))) (Some (LOutSent, e)) None
  | fs_fail l x c e : step cfg x (fk_client s) = Some (c, e) -> e = [] -> x = LOutFail false \/ x = LInFail -> fk_fatal s = true \/ fk_gone s = true ->
      (l = FSendStart \/ (exists p, l = FSendEnd p) \/ l = FRecvStart \/ (exists p, l = FRecvEnd p)) ->
      fstepped s l (with_client s c) (Some (x, e)) None
  | fs_listen : in_idle (fk_client s) = true -> fk_listening s = false -> fk_fatal s = false -> fstepped s FRecvStart (set_listening true s) None None
  | fs_recv p b q c e : fk_down s = b :: q -> step cfg (LRecv b) (fk_client s) = Some (c, e) -> wire_of e = [] -> fk_listening s = true ->
      fstepped s (FRecvEnd p) (set_listening false (set_down q (with_client s c))) (Some (LRecv b, e)) None
  | fs_take b q v : fk_gone s = false -> fk_up s = b :: q -> (frame_of b = [] /\ v = FakeBadFrame \/ exists f, frame_of b = [f] /\ v = FakeGot f) ->
      fstepped s FTake (set_up q s) None (Some v)
  | fs_end : fk_gone s = false -> fk_up s = [] -> c_out_alive (fk_client s) = false -> fstepped s FTake s None (Some FakeTxClosed)
  | fs_sent b : fk_gone s = false -> c_in_alive (fk_client s) = true -> length (fk_down s) < bound -> fstepped s (FSend b) (set_down (fk_down s ++ [b]) s) None (Some (FakeSent b))
  | fs_closed b : fk_gone s = false -> c_in_alive (fk_client s) = false -> fstepped s (FSend b) s None (Some FakeRxClosed)
  | fs_fatal : fk_gone s = false -> fstepped s FFatal (MkFake (fk_client s) (fk_up s) (fk_down s) true (fk_gone s) (fk_sending s) (fk_listening s)) None None
  | fs_drop : fk_gone s = false -> fstepped s FDrop (MkFake (fk_client s) (fk_up s) (fk_down s) (fk_fatal s) true (fk_sending s) (fk_listening s)) None None.

  Lemma fclient_inv x s k s' ce fe : fake_client bound err_key no_wait x s k = Some (s', ce, fe) ->
    exists c e, step cfg x (fk_client s) = Some (c, e) /\ s' = k (with_client s c) /\ ce = Some (x, e) /\ fe = None.
  Proof. unfold fake_client. destruct (step cfg x (fk_client s)) as [[c e]|]; [|discriminate]. intros H. injection H as <- <- <-. eauto 7. Qed.

  Lemma fail_silent x c c' e : step cfg x c = Some (c', e) -> x = LOutFail false \/ x = LInFail -> e = [].
  Proof.
    intros H [-> | ->]; cbn [step] in H.
    - destruct (c_sending c); [|discriminate]. injection H as <- <-. reflexivity.
    - destruct (c_offer c); [discriminate|]. destruct (_ || _)%bool; [discriminate|]. injection H as <- <-. reflexivity.
  Qed.

  Lemma f_step_cases l s s' ce fe : f_step l s = Some (s', ce, fe) -> fstepped s l s' ce fe.
  Proof.
    destruct l as [l| |p| |p| |b| |]; cbn [FakeModel.f_step]; intros H.
    - assert (Hx : fake_client bound err_key no_wait l s (fun s => s) = Some (s', ce, fe) /\
        (forall b, l <> LRecv b) /\ l <> LInFail /\ l <> LOutSent /\ (forall b, l <> LOutFail b) /\ l <> LOutEnd true).
      { destruct l; try discriminate H; try (split; [exact H|repeat split; intros; discriminate]).
        destruct reached; [discriminate H|]. split; [exact H|repeat split; intros; discriminate]. }
      destruct Hx as (H' & N1 & N2 & N3 & N4 & N5). apply fclient_inv in H' as (c & e & Hs & -> & -> & ->).
      apply fs_client; auto. pose proof (quiet_step _ _ _ _ _ Hs) as Q. destruct l; auto; try (exfalso; eapply N4; reflexivity); try congruence.
      destruct reached; auto; congruence.
    - destruct (c_sending (fk_client s)) as [f|] eqn:Es; [|discriminate]. destruct (fk_sending s) eqn:Eg; [discriminate|]. destruct (fk_fatal s) eqn:Ef.
      + apply fclient_inv in H as (c & e & Hs & -> & -> & ->). eapply fs_fail; eauto. eapply fail_silent; eauto.
      + injection H as <- <- <-. eapply fs_start; eauto.
    - destruct (c_sending (fk_client s)) as [f|] eqn:Es; [|discriminate]. destruct (fk_sending s) eqn:Eg; [|discriminate]. cbn [negb] in H.
      destruct (fk_fatal s && p)%bool eqn:Ep.
      { apply andb_prop in Ep as [Ep _]. apply fclient_inv in H as (c & e & Hs & -> & -> & ->). eapply fs_fail; eauto. eapply fail_silent; eauto. }
      destruct (fk_gone s) eqn:En.
      { apply fclient_inv in H as (c & e & Hs & -> & -> & ->). eapply fs_fail; eauto. eapply fail_silent; eauto. }
      destruct (length (fk_up s) <? bound) eqn:El.
      { apply fclient_inv in H as (c & e & Hs & -> & -> & ->). apply Nat.ltb_lt in El.
        replace (with_client s c) with (with_client s c) by reflexivity. cbn [with_client set_up fk_up].
        eapply (fs_out s f p c e); eauto. cbn [step] in Hs. rewrite Es in Hs. injection Hs as <- <-. reflexivity. }
      destruct (fk_fatal s) eqn:Ef; [|discriminate].
      apply fclient_inv in H as (c & e & Hs & -> & -> & ->). eapply fs_fail; eauto. eapply fail_silent; eauto.
    - destruct (in_idle (fk_client s)) eqn:Ei; [|discriminate]. destruct (fk_listening s) eqn:El; [discriminate|]. cbn [negb andb] in H.
      destruct (fk_fatal s) eqn:Ef.
      + apply fclient_inv in H as (c & e & Hs & -> & -> & ->). eapply fs_fail; eauto. eapply fail_silent; eauto.
      + injection H as <- <- <-. apply fs_listen; auto.
    - destruct (fk_listening s) eqn:El; [|discriminate]. cbn [negb] in H. destruct (fk_fatal s && p)%bool eqn:Ep.
      { apply andb_prop in Ep as [Ep _]. apply fclient_inv in H as (c & e & Hs & -> & -> & ->). eapply fs_fail; eauto 6. eapply fail_silent; eauto. }
      destruct (fk_down s) as [|b q] eqn:Ed.
      + destruct (fk_gone s || fk_fatal s)%bool eqn:Eg; [|discriminate]. apply orb_prop in Eg.
        apply fclient_inv in H as (c & e & Hs & -> & -> & ->). eapply fs_fail; eauto 6. { eapply fail_silent; eauto. } tauto.
      + apply fclient_inv in H as (c & e & Hs & -> & -> & ->). eapply fs_recv; eauto. exact (quiet_step _ _ _ _ _ Hs).
    - destruct (fk_gone s) eqn:Eg; [discriminate|]. destruct (fk_up s) as [|b q] eqn:Eu.
      + destruct (c_out_alive (fk_client s)) eqn:Ea; [discriminate|]. injection H as <- <- <-. apply fs_end; auto.
      + destruct (take_from_slice b) as [[[h bd]|]|] eqn:Et; [| |discriminate]; injection H as <- <- <-; eapply fs_take; eauto; unfold frame_of; rewrite Et; eauto.
    - destruct (fk_gone s) eqn:Eg; [discriminate|]. destruct (c_in_alive (fk_client s)) eqn:Ea; cbn [negb] in H.
      + destruct (_ <? _) eqn:El; [|discriminate]. injection H as <- <- <-. apply fs_sent; auto. apply Nat.ltb_lt. auto.
      + injection H as <- <- <-. apply fs_closed; auto.
    - destruct (fk_gone s) eqn:Eg; [discriminate|]. injection H as <- <- <-. pose proof (fs_fatal s Eg) as X. rewrite Eg in X. exact X.
    - destruct (fk_gone s) eqn:Eg; [discriminate|]. injection H as <- <- <-. apply fs_drop; auto.
  Qed.

  (** Runs. *)
  Lemma f_run_cons l ls s s' cl es sv : f_run (l :: ls) s = Some (s', cl, es, sv) ->
    exists s1 ce fe cl1 es1 sv1, f_step l s = Some (s1, ce, fe) /\ f_run ls s1 = Some (s', cl1, es1, sv1) /\
      cl = clab ce ++ cl1 /\ es = cevs ce ++ es1 /\ sv = opt fe ++ sv1.
  Proof.
    cbn [FakeModel.f_run]. destruct (f_step l s) as [[[s1 ce] fe]|] eqn:E; [|discriminate].
    destruct (f_run ls s1) as [[[[s2 cl1] es1] sv1]|] eqn:E1; [|discriminate]. intros H.
    exists s1, ce, fe, cl1, es1, sv1. destruct ce as [[x e]|], fe; injection H as <- <- <- <-; auto.
  Qed.
  Lemma f_run_app a : forall b s s' cl es sv, f_run (a ++ b) s = Some (s', cl, es, sv) ->
    exists s1 cl1 es1 sv1 cl2 es2 sv2, f_run a s = Some (s1, cl1, es1, sv1) /\ f_run b s1 = Some (s', cl2, es2, sv2) /\
      cl = cl1 ++ cl2 /\ es = es1 ++ es2 /\ sv = sv1 ++ sv2.
  Proof.
    induction a as [|l a IH]; intros b s s' cl es sv H.
    - exists s, [], [], [], cl, es, sv. auto.
    - cbn [app] in H. apply f_run_cons in H as (s1 & ce & fe & cl1 & es1 & sv1 & H1 & H2 & -> & -> & ->).
      apply IH in H2 as (s2 & cl2 & es2 & sv2 & cl3 & es3 & sv3 & H3 & H4 & -> & -> & ->).
      exists s2, (clab ce ++ cl2), (cevs ce ++ es2), (opt fe ++ sv2), cl3, es3, sv3.
      rewrite <- !app_assoc. repeat split; auto. cbn [FakeModel.f_run]. rewrite H1, H3. destruct ce as [[x e]|], fe; reflexivity.
  Qed.

  Lemma fstep_client l s s' ce fe : f_step l s = Some (s', ce, fe) -> run cfg (clab ce) (fk_client s) = Some (fk_client s', cevs ce).
  Proof.
    intros H. apply f_step_cases in H. destruct H; cbn [clab cevs run fk_client with_client set_sending set_up set_down set_listening]; try reflexivity;
      match goal with Hs : step _ _ _ = _ |- _ => rewrite Hs; reflexivity end.
  Qed.
  Lemma f_client_run ls : forall s s' cl es sv, f_run ls s = Some (s', cl, es, sv) -> run cfg cl (fk_client s) = Some (fk_client s', es).
  Proof.
    induction ls as [|l ls IH]; intros s s' cl es sv H.
    - injection H as <- <- <- <-. reflexivity.
    - apply f_run_cons in H as (s1 & ce & fe & cl1 & es1 & sv1 & H1 & H2 & -> & -> & ->).
      eapply run_app2; [eapply fstep_client; eauto|eapply IH; eauto].
  Qed.

  (** The two queues. *)
  Lemma step_down l s s' ce fe : f_step l s = Some (s', ce, fe) -> fk_down s ++ sent (opt fe) = received (clab ce) ++ fk_down s'.
  Proof.
    intros H. apply f_step_cases in H. destruct H; cbn; rewrite ?app_nil_r; auto.
    - destruct l; try reflexivity. exfalso. eapply H1; reflexivity.
    - destruct H1 as [-> | ->]; reflexivity.
    - destruct H1 as [[_ ->]|(f & _ & ->)]; rewrite app_nil_r; reflexivity.
  Qed.
  Lemma run_down ls : forall s s' cl es sv, f_run ls s = Some (s', cl, es, sv) -> fk_down s ++ sent sv = received cl ++ fk_down s'.
  Proof.
    induction ls as [|l ls IH]; intros s s' cl es sv H.
    - injection H as <- <- <- <-. cbn. rewrite app_nil_r. reflexivity.
    - apply f_run_cons in H as (s1 & ce & fe & cl1 & es1 & sv1 & H1 & H2 & -> & -> & ->).
      rewrite sent_app, received_app, app_assoc, (step_down _ _ _ _ _ H1), <- !app_assoc, (IH _ _ _ _ _ H2). reflexivity.
  Qed.
  (** What [FTake] took, in bytes. *)
  Definition took (fe : list FakeEv) (bs : list (list N)) : Prop :=
    Forall2 (fun v b => frame_of b = [] /\ v = FakeBadFrame \/ exists f, frame_of b = [f] /\ v = FakeGot f)
      (filter (fun v => match v with FakeGot _ | FakeBadFrame => true | _ => false end) fe) bs.
  Lemma step_up l s s' ce fe : f_step l s = Some (s', ce, fe) ->
    exists bs, took (opt fe) bs /\ fk_up s ++ flat_map wire_of (cevs ce) = bs ++ fk_up s'.
  Proof.
    intros H. apply f_step_cases in H. destruct H; try (exists []; split; [constructor|cbn; rewrite ?app_nil_r; auto]; fail).
    - exists []. split; [constructor|]. cbn. rewrite H0, !app_nil_r. reflexivity.
    - exists []. split; [constructor|]. cbn. rewrite H4, app_nil_r. reflexivity.
    - exists []. split; [constructor|]. cbn. rewrite H0. cbn. rewrite !app_nil_r. reflexivity.
    - exists []. split; [constructor|]. cbn. rewrite H1, !app_nil_r. reflexivity.
    - exists [b]. cbn. rewrite app_nil_r. split; auto. unfold took. destruct H1 as [[X ->]|(f & X & ->)]; cbn; constructor; eauto.
  Qed.
  Lemma took_app a b x y : took a x -> took b y -> took (a ++ b) (x ++ y).
  Proof. unfold took. intros H1 H2. rewrite filter_app. apply Forall2_app; auto. Qed.
  Lemma run_up ls : forall s s' cl es sv, f_run ls s = Some (s', cl, es, sv) ->
    exists bs, took sv bs /\ fk_up s ++ wire es = bs ++ fk_up s'.
  Proof.
    induction ls as [|l ls IH]; intros s s' cl es sv H.
    - injection H as <- <- <- <-. exists []. split; [constructor|]. cbn. rewrite app_nil_r. reflexivity.
    - apply f_run_cons in H as (s1 & ce & fe & cl1 & es1 & sv1 & H1 & H2 & -> & -> & ->).
      destruct (step_up _ _ _ _ _ H1) as (b1 & T1 & E1). destruct (IH _ _ _ _ _ H2) as (b2 & T2 & E2).
      exists (b1 ++ b2). split; [apply took_app; auto|]. rewrite wire_wire_of, flat_map_app, app_assoc, E1, <- !app_assoc, <- wire_wire_of, E2. reflexivity.
  Qed.
  (** If all the bytes are frames, the frames taken are those. *)
  Lemma took_frames sv bs frames rest : took sv bs -> map rpc_to_bytes frames = bs ++ rest -> Forall (fun f => frame_of (rpc_to_bytes f) = [f]) frames ->
    ~ In FakeBadFrame sv /\ exists more, frames = got sv ++ more /\ map rpc_to_bytes more = rest.
  Proof.
    unfold took. revert bs frames. induction sv as [|v sv IH]; intros bs frames T E F.
    - inversion T. subst. split; auto. exists frames. auto.
    - destruct v; cbn [filter] in T; try (destruct (IH _ _ T E F) as (N & X); split; [intros [Y|Y]; [discriminate|auto]|exact X]).
      + inversion T as [|v' b' sv' bs' [[_ Y]|(g & Y1 & Y2)] T']; subst; [discriminate|]. injection Y2 as <-.
        destruct frames as [|f0 frames]; [discriminate|]. cbn [map app] in E. injection E as E1 E2. pose proof (Forall_inv F) as F0. apply Forall_inv_tail in F.
        destruct (IH _ _ T' E2 F) as (N & more & -> & M). cbn beta in F0. rewrite E1, Y1 in F0. injection F0 as ->.
        split; [intros [X|X]; [discriminate|auto]|]. exists more. auto.
      + exfalso. inversion T as [|v' b' sv' bs' [[Y _]|(g & Y1 & Y2)] T']; subst; [|discriminate].
        destruct frames as [|f0 frames]; [discriminate|]. cbn [map app] in E. injection E as E1 E2. pose proof (Forall_inv F) as F0. cbn beta in F0. rewrite E1, Y in F0. discriminate.
  Qed.
End F.
