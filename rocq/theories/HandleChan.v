(** Lemmas for HandleThm.v: handles of a client that talks to a server over channels. *)
From Coq Require Import NArith List Bool Arith Lia Permutation.
From Verif Require Import KeyModel HeaderModel KeySpec HeaderSpec KeyProof HeaderProof MinKeyModel SchemaModel MacroModel PostcardModel DispatchModel DispatchSpec SubModel SubProof
  ClientModel ClientSpec ClientProof ClientHist ClientMore SystemModel SystemSpec SystemProof LiveSpec LiveProof AsyncModel AsyncSpec AsyncProof ChanModel ChanSysModel ChanSysSpec ChanSysProof ChanSysLive
  HandleModel HandleSpec HandleProof.
Import ListNotations.

Lemma alone_contains cfg : contains_client cfg (client_below cfg) (fun c => c) (fun l => l) is_call.
Proof.
  unfold client_below. split.
  - intros l s s' x e H. destruct (step cfg l s) as [[c1 e1]|] eqn:E; [|discriminate]. injection H as <- <- <-. exact E.
  - intros l s s' H. destruct (step cfg l s) as [[c1 e1]|]; discriminate.
  - intros l s s' x e N H. destruct (step cfg l s) as [[c1 e1]|]; [|discriminate]. injection H as _ <- _. exact N.
  - intros x s s' ce H. destruct (step cfg x s) as [[c1 e1]|]; [|discriminate]. injection H as _ <-. eauto.
Qed.

Section L.
  Context {Val Ctx SCtx : Type}.
  Variable std : StdKeys.
  Variable can_spawn : Trace Val SCtx -> nat -> bool.
  Variable kkind : VarKeyKind.
  Variable spawn_ctxt : Ctx -> Ctx * SCtx.
  Variable d : Dispatcher Val Ctx.
  Variable enc : Payload Val -> list N.
  Variable task : nat -> SCtx -> VarHeader -> Val -> HProg Val unit.
  Variable bg : list (HProg Val unit).
  Variable cfg : Config.
  Variable cap_up cap_down buf : nat.

  Notation c_step := (c_step Val Ctx SCtx std can_spawn kkind spawn_ctxt d enc task cfg cap_up cap_down buf).
  Notation c_run := (c_run Val Ctx SCtx std can_spawn kkind spawn_ctxt d enc task cfg cap_up cap_down buf).
  Notation client_step := (client_step Val Ctx SCtx std can_spawn kkind spawn_ctxt d enc task cfg).
  Notation CSys := (CSys Val Ctx SCtx).
  Notation cs_a := (cs_a Val Ctx SCtx).
  Notation up c := (y_up _ _ _ (a_sys Val Ctx SCtx (cs_a c))).
  Notation client_some := (client_some std can_spawn kkind spawn_ctxt d enc task cfg).
  Notation c_step_cases := (c_step_cases std can_spawn kkind spawn_ctxt d enc task cfg cap_up cap_down buf).

  Lemma chan_client l c c' ce : c_step l c = Some (c', ce) ->
    match ce with Some (x, e) => step cfg x (cs_client c) = Some (cs_client c', e) | None => cs_client c' = cs_client c end.
  Proof.
    intros Hs. destruct (step_sim std can_spawn kkind spawn_ctxt d enc task cfg cap_up cap_down buf _ _ _ _ Hs) as (lsa & new & [_ R _ _ _ _]).
    specialize (R []). apply (a_client_run std can_spawn kkind spawn_ctxt d enc task cfg) in R. cbn [fst snd] in R. destruct ce as [[l' e]|]; cbn [labs evss run] in R.
    - destruct (step cfg l' _) as [[c1 e1]|] eqn:Sx; [|discriminate]. injection R as R ->. subst c1. reflexivity.
    - injection R as R. unfold cs_client. auto.
  Qed.
  Lemma chan_as x c c' ce : c_step (CClient x) c = Some (c', ce) -> exists e, ce = Some (x, e).
  Proof.
    intros H. cbn [ChanSysModel.c_step] in H. assert (E : client_step x c = Some (c', ce)) by (destruct x; try discriminate H; try exact H; destruct reached; [discriminate|exact H]).
    destruct (client_some _ _ _ _ E) as (cl & e & _ & _ & _ & ->). eauto.
  Qed.
  Lemma chan_contains : contains_client cfg c_step cs_client CClient chan_call.
  Proof.
    split.
    - intros l s s' x e H. exact (chan_client _ _ _ _ H).
    - intros l s s' H. exact (chan_client _ _ _ _ H).
    - intros l c c' x e N H. destruct l as [l| | |pref|pref who| |].
      + destruct (chan_as _ _ _ _ H) as (e' & [= -> ->]). exact N.
      + cbn [ChanSysModel.c_step] in H. destruct (snd _); try discriminate H; destruct (client_some _ _ _ _ H) as (cl & e' & _ & _ & _ & [= -> ->]); reflexivity.
      + cbn [ChanSysModel.c_step] in H. destruct (host_receive _) as [ch [b| | |]]; try discriminate H.
        * destruct (step cfg (LRecv b) _) as [[? ?]|]; [|discriminate]. destruct (AsyncModel.a_step _ _ _ _ _ _ _ _ _ _ _ _ _ _); [|discriminate]. injection H as _ <- _. reflexivity.
        * destruct (client_some _ _ _ _ H) as (cl & e' & _ & _ & _ & [= -> ->]); reflexivity.
      + exfalso. cbn [ChanSysModel.c_step] in H. destruct (a_cur _ _ _ _); [discriminate|]. destruct (_ && _)%bool; [|discriminate].
        destruct (chan_receive _ _ _) as [ch [b| | |]]; try discriminate H. destruct (AsyncModel.a_step _ _ _ _ _ _ _ _ _ _ _ _ _ _); discriminate.
      + exfalso. cbn [ChanSysModel.c_step] in H. destruct (snd _); try discriminate H; destruct (AsyncModel.a_step _ _ _ _ _ _ _ _ _ _ _ _ _ _); discriminate.
      + discriminate.
      + cbn [ChanSysModel.c_step] in H. destruct (_ || _)%bool; discriminate.
    - intros x s s' ce H. exact (chan_as _ _ _ _ H).
  Qed.

  (** The labels of the model below. *)
  Definition below (l : HLabel CLabel) : list CLabel :=
    match l with
    | HCall _ _ l => [CClient l]
    | HGo _ l => [l]
    | HEnd _ => [CClient LClose; CClient (LOutEnd false)]
    | _ => []
    end.
  Notation h_step := (h_step CSys CLabel c_step cs_client CClient chan_call).
  Notation h_run := (h_run CSys CLabel c_step cs_client CClient chan_call).

  Lemma below_step l s s' x : h_step l s = Some (s', x) -> c_run (below l) (h_below _ s) = Some (h_below _ s', map fst x, map snd x).
  Proof.
    unfold HandleModel.h_step. intros H. destruct l as [h|h|h y|y| |h|i|i]; cbn [below ChanSysModel.c_run].
    - destruct (alive _ _); [|discriminate]. injection H as <- <-. reflexivity.
    - destruct (_ && _)%bool; [|discriminate]. injection H as <- <-. reflexivity.
    - destruct (_ && _)%bool; [|discriminate]. destruct (c_step _ _) as [[c1 [[z e]|]]|]; [| |discriminate]; injection H as <- <-; reflexivity.
    - destruct (chan_call y); [discriminate|]. destruct (c_step _ _) as [[c1 [[z e]|]]|]; [| |discriminate]; injection H as <- <-; reflexivity.
    - destruct (c_sending _); [discriminate|]. destruct (c_out _); [|discriminate]. destruct (_ && _)%bool; [|discriminate].
      destruct (c_step (CClient LClose) _) as [[c1 ce1]|]; [|discriminate]. destruct (c_step (CClient (LOutEnd false)) c1) as [[c2 ce2]|]; [|discriminate].
      injection H as <- <-. destruct ce1 as [[z1 e1]|], ce2 as [[z2 e2]|]; reflexivity.
    - destruct (alive _ _); [|discriminate]. injection H as <- <-. reflexivity.
    - destruct (nth_error _ _) as [[w|]|]; try discriminate. destruct (c_stopped _); [|discriminate]. injection H as <- <-. reflexivity.
    - destruct (nth_error _ _) as [[w|]|]; try discriminate. injection H as <- <-. reflexivity.
  Qed.
  Lemma c_run_app a : forall b c c1 c2 cl1 es1 cl2 es2, c_run a c = Some (c1, cl1, es1) -> c_run b c1 = Some (c2, cl2, es2) -> c_run (a ++ b) c = Some (c2, cl1 ++ cl2, es1 ++ es2).
  Proof.
    induction a as [|l a IH]; intros b c c1 c2 cl1 es1 cl2 es2 H1 H2; cbn [ChanSysModel.c_run app] in *; [injection H1 as <- <- <-; exact H2|].
    destruct (c_step l c) as [[c3 ce]|]; [|discriminate]. destruct (c_run a c3) as [[[c4 cl4] es4]|] eqn:R; [|discriminate].
    destruct ce as [[x e]|]; injection H1 as <- <- <-; rewrite (IH _ _ _ _ _ _ _ _ R H2); reflexivity.
  Qed.
  Lemma below_run ls : forall s s' cl es, h_run ls s = Some (s', cl, es) -> c_run (concat (map below ls)) (h_below _ s) = Some (h_below _ s', cl, es).
  Proof.
    induction ls as [|l ls IH]; intros s s' cl es H; cbn [HandleModel.h_run] in H; [injection H as <- <- <-; reflexivity|].
    destruct (h_step l s) as [[s1 x]|] eqn:E; [|discriminate]. destruct (h_run ls s1) as [[[s2 cl2] es2]|] eqn:R; [|discriminate]. injection H as <- <- <-.
    cbn [map concat]. eapply c_run_app; [exact (below_step _ _ _ _ E)|exact (IH _ _ _ _ R)].
  Qed.

  (** The server finds its channel closed only when it has taken everything out of it. *)
  Definition drained (c : CSys) : Prop := cs_ended _ _ _ c = true -> cs_stopped _ _ _ c = true \/ (c_out_alive (cs_client c) = false /\ up c = []).
  Lemma drained_step l c c' ce : c_step l c = Some (c', ce) -> FInv (cs_client c) -> drained c -> drained c'.
  Proof.
    intros H F D. unfold drained in *.
    pose proof (c_step_cases _ _ _ _ H) as Cs.
    destruct Cs as [l cl e Nr Sx W N1 N2 N3 N4|cl e Sx L W|cl e l Sx W D'|b q cl e D' Sx|pref b q a U Sa E1 E2 E3|pref b q U|pref En Wy|pref who a r Sa L -> E1 E2 E3 E4|pref who a r Sa E1 E3 E4| |Dr]; cbn; auto.
    - intros X. destruct (D X) as [Y|(Y & Z)]; auto. right. split; auto. unfold cs_client in *. cbn. eapply out_alive_step; eauto.
    - intros X. destruct (D X) as [Y|(Y & Z)]; auto. exfalso. destruct F as (_ & _ & _ & F4 & _). destruct (F4 Y) as (_ & Sd). cbn [step] in Sx. rewrite Sd in Sx. discriminate.
    - intros X. destruct (D X) as [Y|(Y & Z)]; auto. right. split; auto. unfold cs_client in *. cbn. eapply out_alive_step; eauto.
    - intros X. destruct (D X) as [Y|(Y & Z)]; auto. right. split; auto. unfold cs_client in *. cbn. eapply out_alive_step; eauto.
    - intros X. destruct (D X) as [Y|(Y & Z)]; auto. rewrite U in Z. discriminate.
    - intros X. destruct (D X) as [Y|(Y & Z)]; auto. rewrite U in Z. discriminate.
    - intros _. cbn [ChanSysModel.c_step] in H. destruct (a_cur _ _ _ _); [discriminate|]. destruct (_ && _)%bool; [|discriminate].
      unfold chan_receive in H. cbn [up_for_server ch_stop ch_queue ch_tx] in H. destruct (cs_stopped _ _ _ c) eqn:St; [auto|]. cbn [andb] in H. right.
      destruct (up c) as [|b q].
      + destruct (c_out_alive (y_client _ _ _ (a_sys _ _ _ (cs_a c)))) eqn:O; [discriminate|]. auto.
      + exfalso. clear - H En. destruct (_ <=? _).
        * destruct (AsyncModel.a_step _ _ _ _ _ _ _ _ _ _ _ _ _ _); [|discriminate]. unfold with_a in H. rewrite En in H. discriminate.
        * unfold with_a in H. rewrite En in H. discriminate.
    - rewrite E1. unfold cs_client in *. cbn. rewrite E3. exact D.
    - unfold cs_client in *. cbn. rewrite E3. exact D.
  Qed.
  Lemma drained_run ls : forall c c' cl es, c_run ls c = Some (c', cl, es) -> FInv (cs_client c) -> drained c -> drained c'.
  Proof.
    induction ls as [|l ls IH]; intros c c' cl es H F D; cbn [ChanSysModel.c_run] in H; [injection H as <- _ _; exact D|].
    destruct (c_step l c) as [[c1 ce]|] eqn:St; [|discriminate]. destruct (c_run ls c1) as [[[c2 cl2] es2]|] eqn:R; [|discriminate].
    assert (c2 = c') as -> by (destruct ce as [[? ?]|]; injection H as <- _ _; auto). eapply IH; [exact R| |eapply drained_step; eauto].
    pose proof (chan_client _ _ _ _ St) as Cc. destruct ce as [[x e]|]; [eapply finv_step; eauto|rewrite Cc; exact F].
  Qed.

  (** *** The steps end *)
  Definition pending (hs : Handles) : nat := length (filter (fun w : option nat => match w with Some _ => true | None => false end) (hs_waits hs)).
  Definition h_less (s' s : HState CSys) : Prop :=
    c_less (h_below _ s') (h_below _ s) \/ (h_below _ s' = h_below _ s /\ pending (h_handles _ s') < pending (h_handles _ s)).
  Lemma h_less_wf : well_founded h_less.
  Proof.
    clear. enough (G : forall c, Acc c_less c -> forall n s, h_below _ s = c -> pending (h_handles _ s) = n -> Acc h_less s).
    { intros s. exact (G _ (c_less_wf _) _ s eq_refl eq_refl). }
    intros c A. induction A as [c _ I1]. intros n. induction n as [n I2] using lt_wf_ind. intros s E1 E2. constructor. intros s' [Ls|[E Ls]].
    - eapply I1; [rewrite <- E1; exact Ls|reflexivity|reflexivity].
    - eapply I2; [|rewrite <- E1; exact E|reflexivity]. lia.
  Qed.
  Lemma pending_less (l : list (option nat)) i h : nth_error l i = Some (Some h) ->
    length (filter (fun w : option nat => match w with Some _ => true | None => false end) (set_nth i None l)) < length (filter (fun w : option nat => match w with Some _ => true | None => false end) l).
  Proof.
    clear. revert i. induction l as [|w l IH]; intros [|i] H; cbn in *; try discriminate; [injection H as ->; cbn; lia|].
    specialize (IH _ H). unfold set_nth in *. cbn [firstn skipn app]. destruct (skipn i l) as [|y tl] eqn:E.
    - apply nth_error_split in H as (l1 & l2 & -> & <-). rewrite skipn_app, skipn_all, Nat.sub_diag in E. discriminate.
    - cbn [filter app]. destruct w; cbn [length]; lia.
  Qed.
  Lemma own_h_less l s s' x : KInv cap_up cap_down (h_below _ s) -> FInv (cs_client (h_below _ s)) -> h_own_step c_own_step l = true -> h_step l s = Some (s', x) -> h_less s' s.
  Proof.
    intros K F Ho H. unfold HandleModel.h_step in H. destruct l as [h|h|h y|y| |h|i|i]; try discriminate Ho.
    - destruct (chan_call y); [discriminate|]. destruct (c_step _ _) as [[c1 ce]|] eqn:E; [|discriminate]. injection H as <- _. left. cbn.
      exact (own_c_less std can_spawn kkind spawn_ctxt d enc task cfg cap_up cap_down buf _ _ _ _ K F Ho E).
    - destruct (c_sending _); [discriminate|]. destruct (c_out _); [|discriminate]. destruct (_ && _)%bool; [|discriminate].
      destruct (c_step (CClient LClose) _) as [[c1 ce1]|] eqn:E1; [|discriminate]. destruct (c_step (CClient (LOutEnd false)) c1) as [[c2 ce2]|] eqn:E2; [|discriminate].
      injection H as <- _. left. cbn [h_below]. left.
      assert (Q : forall l a a' ce, (l = LClose \/ l = LOutEnd false) -> c_step (CClient l) a = Some (a', ce) -> cs_ended _ _ _ a' = cs_ended _ _ _ a /\ exists e, step cfg l (cs_client a) = Some (cs_client a', e)).
      { clear. intros l a a' ce Hl H. pose proof (chan_client _ _ _ _ H) as C. destruct (chan_as _ _ _ _ H) as (e & ->). split; [|eauto].
        assert (E : client_step l a = Some (a', Some (l, e))) by (destruct Hl as [-> | ->]; exact H). destruct (client_some _ _ _ _ E) as (? & ? & _ & _ & -> & _). reflexivity. }
      destruct (Q _ _ _ _ (or_introl eq_refl) E1) as (Q1 & e1 & S1). destruct (Q _ _ _ _ (or_intror eq_refl) E2) as (Q2 & e2 & S2). unfold m_alive. rewrite Q2, Q1.
      destruct (alive_step can_spawn task cfg buf _ _ _ _ S1) as (L1 & _). destruct (alive_step can_spawn task cfg buf _ _ _ _ S2) as (_ & L2).
      assert (F' : FInv (cs_client c1)) by (eapply finv_step; eauto). specialize (L2 F' (or_intror (or_introl (ex_intro _ false eq_refl)))). lia.
    - destruct (nth_error _ _) as [[w|]|] eqn:E; try discriminate. destruct (c_stopped _); [|discriminate]. injection H as <- _. right. split; [reflexivity|]. eapply pending_less; eauto.
  Qed.
  Lemma h_invs l s s' x : h_step l s = Some (s', x) -> KInv cap_up cap_down (h_below _ s) -> FInv (cs_client (h_below _ s)) -> KInv cap_up cap_down (h_below _ s') /\ FInv (cs_client (h_below _ s')).
  Proof.
    intros H K F. pose proof (below_step _ _ _ _ H) as R. split; [exact (kinv_run std can_spawn kkind spawn_ctxt d enc task cfg cap_up cap_down buf _ _ _ _ _ R K)|].
    revert K F R. generalize (h_below _ s) as c, (below l) as ls, (map fst x) as cl, (map snd x) as es. clear. intros c ls. revert c.
    induction ls as [|l ls IH]; intros c cl es K F R; cbn [ChanSysModel.c_run] in R; [injection R as <- _ _; exact F|].
    destruct (c_step l c) as [[c1 ce]|] eqn:St; [|discriminate]. destruct (c_run ls c1) as [[[c2 cl2] es2]|] eqn:R2; [|discriminate].
    assert (c2 = h_below _ s') by (destruct ce as [[? ?]|]; injection R as -> _ _; reflexivity). subst c2. eapply (IH c1); [eapply kinv_step; eauto| |exact R2].
    pose proof (chan_client _ _ _ _ St) as Cc. destruct ce as [[y e]|]; [eapply finv_step; eauto|rewrite Cc; exact F].
  Qed.
End L.
