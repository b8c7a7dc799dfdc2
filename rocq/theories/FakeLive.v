(** Lemmas for FakeThm.v: the program at rest, the end of its steps, and what becomes of a
    reply. *)
From Coq Require Import NArith List Bool Arith Lia.
From Verif Require Import KeyModel HeaderModel KeySpec HeaderSpec KeyProof HeaderProof SubModel SubSpec SubProof
  ClientModel ClientSpec ClientProof ClientHist ClientMore ClientOut ClientThm ClientThm3 DispatchModel SystemModel LiveSpec LiveProof ChanSysLive
  FakeModel FakeSpec FakeProof.
Import ListNotations.

(** *** More about histories of the client *)
Lemma reach_closed cfg cl c es r : run cfg cl client_new = Some (c, es) -> In (r, Closed) (results es) -> c_stopped c = true.
Proof.
  revert cl c es. apply (run_ind cfg (fun cl c es => In (r, Closed) (results es) -> c_stopped c = true)).
  - intros [].
  - intros ls c es l c' e Hr IH Hs. rewrite results_app, in_app_iff, (step_results _ _ _ _ _ Hs). intros [X|X].
    + eapply step_stopped; eauto.
    + destruct (result_of e) as [[r' res]|] eqn:E; [|destruct X]. destruct X as [[= -> ->]|[]].
      eapply closed_stopped; eauto. eapply reach_finv; eauto.
Qed.
(** What was accepted is not refused. *)
Lemma reach_not_refused cfg cl c es r : run cfg cl client_new = Some (c, es) -> In (inl r) (accepted cl es) -> ~ In (r, BadResponse) (results es).
Proof.
  revert cl c es. apply (run_ind cfg (fun cl c es => In (inl r) (accepted cl es) -> ~ In (r, BadResponse) (results es))).
  - intros [].
  - intros ls c es l c' e Hr IH Hs. pose proof (run_length _ _ _ _ _ Hr) as HL. pose proof (reach_cinv _ _ _ _ Hr) as HI.
    rewrite (accepted_app _ _ _ _ HL), results_app, !in_app_iff, (step_results _ _ _ _ _ Hs). intros [A|A] [B|B].
    + exact (IH A B).
    + destruct (result_of e) as [[r' res]|] eqn:E; [|destruct B]. destruct B as [[= -> ->]|[]].
      destruct (reach_out _ _ _ _ Hr) as (_ & _ & R & _). destruct (R _ A) as (q & Q1 & Q2).
      pose proof (step_cstep _ _ _ _ _ Hs) as HC. rewrite E in HC. destruct (cstep_result_inv _ _ _ _ _ _ _ _ HC) as (q' & Q1' & _ & _ & _ & ee & kk & _ & Y).
      rewrite Q1 in Q1'. injection Q1' as <-. destruct ee; destruct Y as [_ Y]; destruct Q2 as [Q2|(k2 & Q2)]; congruence.
    + pose proof (proj2 (reach_results _ _ _ _ Hr) _ _ B) as En.
      assert (X : l = LSend r). { clear - A. destruct l; cbn [accepted] in A; try (destruct A; fail); destruct e as [|[] []]; cbn in A; try destruct ok; try (destruct A; fail); destruct A as [A|[]]; congruence. }
      subst l. destruct En as (q & Q1 & Q2). cbn [step] in Hs. rewrite Q1, Q2 in Hs. discriminate.
    + assert (X : l = LSend r /\ e = []). { clear - A. destruct l; cbn [accepted] in A; try (destruct A; fail); destruct e as [|[] []]; cbn in A; try destruct ok; try (destruct A; fail); destruct A as [A|[]]; try congruence. split; congruence. }
      destruct X as [_ ->]. destruct B.
Qed.
Lemma received_split l : forall x b y, received l = x ++ b :: y -> exists p q, l = p ++ LRecv b :: q.
Proof.
  induction l as [|a l IH]; intros x b y H; [destruct x; discriminate|].
  assert (D : (exists c, a = LRecv c) \/ received (a :: l) = received l) by (destruct a; eauto).
  destruct D as [(c & ->)|D].
  - cbn in H. destruct x as [|c' x]; cbn in H; injection H as -> H.
    + exists [], l. reflexivity.
    + destruct (IH _ _ _ H) as (p & q & ->). exists (LRecv c' :: p), q. reflexivity.
  - rewrite D in H. destruct (IH _ _ _ H) as (p & q & ->). exists (a :: p), q. reflexivity.
Qed.
Lemma arrived_received cl f : In f (arrived cl) -> exists b, In b (received cl) /\ frame_of b = [f].
Proof.
  unfold arrived. rewrite in_flat_map. intros (l & H1 & H2). destruct l; try destruct H2. exists bytes. split.
  - unfold received. apply in_flat_map. exists (LRecv bytes). split; auto. left. auto.
  - unfold frame_of in *. destruct (take_from_slice bytes) as [[[h b]|]|]; try (destruct H2; fail). destruct H2 as [->|[]]. reflexivity.
Qed.
Lemma fake_frame_of key seq body : header_ok (MkHeader (VKey8 key) (Seq4 seq)) ->
  frame_of (fake_frame key seq body) = [MkFrame (MkHeader (VKey8 key) (Seq4 seq)) body].
Proof. intros H. unfold frame_of, fake_frame, rpc_to_bytes. cbn [f_hdr f_body]. pose proof (take_write _ body H) as T. unfold frame_to_bytes in T. rewrite T. reflexivity. Qed.
Lemma eqb_key8 a b : varkey_eqb (VKey8 a) (VKey8 b) = true -> a = b.
Proof. intros H. cbn [varkey_eqb] in H. apply key8_eqb_iff in H. exact H. Qed.

Section L.
  Variable bound : nat.
  Variable err_key : Key8.
  Variable no_wait : bool.
  Notation cfg := (fake_cfg bound err_key no_wait).
  Notation f_step := (f_step bound err_key no_wait).
  Notation f_run := (f_run bound err_key no_wait).

  Lemma reach_fake ls s cl es sv : f_run ls fake_new = Some (s, cl, es, sv) -> run cfg cl client_new = Some (fk_client s, es).
  Proof. intros H. exact (f_client_run _ _ _ _ _ _ _ _ _ H). Qed.

  (** *** Own steps end *)
  Definition fk_alive (s : Fake) : nat := b2n (c_in_alive (fk_client s)) + b2n (c_out_alive (fk_client s)).
  Definition fk_m2 (s : Fake) : nat := 2 * m_out (fk_client s) + b2n (negb (fk_sending s)).
  Definition fk_m3 (s : Fake) : nat := m_in (fk_client s) + 3 * length (fk_down s) + b2n (negb (fk_listening s)).
  Definition f_less (a b : Fake) : Prop :=
    fk_alive a < fk_alive b \/ (fk_alive a = fk_alive b /\ (fk_m2 a < fk_m2 b \/ (fk_m2 a = fk_m2 b /\ fk_m3 a < fk_m3 b))).
  Lemma f_less_wf : well_founded f_less.
  Proof.
    assert (G : forall n1 n2 n3 s, fk_alive s < n1 \/ (fk_alive s = n1 /\ (fk_m2 s < n2 \/ (fk_m2 s = n2 /\ fk_m3 s < n3))) -> Acc f_less s).
    { induction n1 as [n1 I1] using lt_wf_ind. induction n2 as [n2 I2] using lt_wf_ind. induction n3 as [|n3 I3]; intros s H.
      - destruct H as [H|(H1 & [H2|(_ & H3)])]; [| |lia].
        + eapply (I1 _ H (S (fk_m2 s)) 0). right. split; auto.
        + eapply (I2 _ H2 (S (fk_m3 s))). right. split; auto.
      - destruct H as [H|(H1 & [H2|(H2 & H3)])].
        + eapply (I1 _ H (S (fk_m2 s)) 0). right. split; auto.
        + eapply (I2 _ H2 (S (fk_m3 s))). right. split; auto.
        + constructor. intros s' L. apply I3. unfold f_less in L. lia. }
    intros s. apply (G (S (fk_alive s)) 0 0). auto.
  Qed.
  Definition alive_step' := @alive_step unit unit (fun _ _ => true) (fun _ _ _ _ => HRet tt) cfg 0.
  Lemma own_f_less l s s' ce fe : FInv (fk_client s) -> f_own_step l = true -> f_step l s = Some (s', ce, fe) -> f_less s' s.
  Proof.
    intros F Ho H. apply f_step_cases in H. unfold f_less.
    assert (Le : forall n P, n <= fk_alive s -> (P : Prop) -> n < fk_alive s \/ (n = fk_alive s /\ P)).
    { intros n P L Hp. destruct (Nat.eq_dec n (fk_alive s)); [right; auto|left; lia]. }
    destruct H as [l c e Sx W N1 N2 N3 N4 N5|f E1 E2 E3|f p c e E1 Sx E2 E3 E4 W|l x c e Sx W D D1 D2|E1 E2 E3|p b q c e D Sx W L|b q v E1 E2 E3|E1 E2 E3|b E1 E2 E3|b E1 E2|E1|E1]; try discriminate Ho.
    - destruct (alive_step' _ _ _ _ Sx) as [A1 A2]. assert (D : own_client l = true \/ l = LInEnd \/ exists r, l = LOutEnd r).
      { destruct l; auto; right; right; eauto. }
      destruct D as [D|D].
      + apply Le; [exact A1|]. unfold fk_m2, fk_m3. cbn [with_client fk_client fk_sending fk_listening fk_down].
        destruct (own_client_less _ _ _ _ _ D Sx) as [X|[X1 X2]]; [left; lia|]. rewrite W in X1. cbn in X1. right. split; lia.
      + left. apply A2; auto. tauto.
    - right. split; [reflexivity|]. left. unfold fk_m2. cbn. rewrite E2. cbn. lia.
    - destruct (alive_step' _ _ _ _ Sx) as [A1 _]. apply Le; [exact A1|]. left. unfold fk_m2. cbn [with_client set_sending set_up fk_client fk_sending]. rewrite E2.
      destruct (own_client_less _ _ _ _ _ (eq_refl : own_client LOutSent = true) Sx) as [X|[X1 X2]]; rewrite W in *; cbn [length negb b2n] in *; lia.
    - left. destruct (alive_step' _ _ _ _ Sx) as [_ A2]. apply A2; auto. destruct D as [-> | ->]; eauto.
    - right. split; [reflexivity|]. right. split; [reflexivity|]. unfold fk_m3. cbn. rewrite E2. cbn. lia.
    - destruct (alive_step' _ _ _ _ Sx) as [A1 _]. apply Le; [exact A1|]. right. destruct (recv_less _ _ _ _ _ Sx) as [X Y].
      unfold fk_m2, fk_m3. cbn [with_client set_listening set_down fk_client fk_sending fk_listening fk_down]. rewrite X, D, L. cbn [length negb b2n]. split; lia.
  Qed.

  (** *** At rest *)
  Section Rest.
    Variable ls : list FLabel. Variable s : Fake. Variable cl : list Label. Variable es : list (list Ev). Variable sv : list FakeEv.
    Hypothesis Hr : f_run ls fake_new = Some (s, cl, es, sv).
    Hypothesis Hrest : forall l, f_own_step l = true -> f_step l s = None.

    Lemma fk_client_rest l : own_step (SClient l) = true \/ l = LInEnd \/ l = LOutEnd false -> l <> LOutSent -> step cfg l (fk_client s) = None.
    Proof.
      clear - Hrest. intros D N. specialize (Hrest (FClient l)).
      assert (Ho : f_own_step (FClient l) = true). { destruct D as [D|[-> | ->]]; auto. destruct l; auto. }
      specialize (Hrest Ho). destruct l; cbn [FakeModel.f_step] in Hrest; unfold fake_client in Hrest;
        try (match type of Hrest with match ?x with _ => _ end = None => destruct x as [[? ?]|]; [discriminate|reflexivity] end);
        try (destruct D as [D|[D|D]]; discriminate); try (exfalso; apply N; reflexivity).
      destruct reached; [destruct D as [D|[D|D]]; discriminate|].
      match type of Hrest with match ?x with _ => _ end = None => destruct x as [[? ?]|]; [discriminate|reflexivity] end.
    Qed.
    Lemma fk_open_rest : c_stopped (fk_client s) = false ->
      c_in_alive (fk_client s) = true /\ c_out_alive (fk_client s) = true /\ c_offer (fk_client s) = None /\ fk_down s = [] /\ fk_gone s = false /\ fk_fatal s = false /\
      (c_sending (fk_client s) = None /\ c_out (fk_client s) = [] \/ bound <= length (fk_up s)).
    Proof.
      intros St. pose proof (reach_fake _ _ _ _ _ Hr) as R. pose proof (reach_finv _ _ _ _ R) as F. pose proof (reach_cinv _ _ _ _ R) as I.
      assert (Ai : c_in_alive (fk_client s) = true). { destruct (c_in_alive (fk_client s)) eqn:X; auto. destruct F as (_ & F & _). specialize (F X). congruence. }
      assert (Ao : c_out_alive (fk_client s) = true). { destruct (c_out_alive (fk_client s)) eqn:X; auto. destruct F as (F & _). specialize (F X). congruence. }
      destruct (idle_receives cfg _ F I Ai) as (O & B & Rc).
      { intros ch. apply fk_client_rest; [left; reflexivity|discriminate]. }
      { intros w. apply fk_client_rest; [left; reflexivity|discriminate]. }
      assert (Id : in_idle (fk_client s) = true) by (unfold in_idle; rewrite Ai, B, O; reflexivity).
      assert (Fl : exists c e, step cfg LInFail (fk_client s) = Some (c, e)) by (cbn [step]; rewrite O, Ai, B; cbn; eauto).
      destruct Fl as (cf & ef & Fl).
      assert (Li : fk_listening s = true).
      { destruct (fk_listening s) eqn:X; auto. specialize (Hrest FRecvStart eq_refl). cbn [FakeModel.f_step] in Hrest. rewrite Id, X in Hrest. cbn [negb andb] in Hrest.
        unfold fake_client in Hrest. rewrite Fl in Hrest. destruct (fk_fatal s); discriminate. }
      assert (Fa : fk_fatal s = false).
      { destruct (fk_fatal s) eqn:X; auto. specialize (Hrest (FRecvEnd true) eq_refl). cbn [FakeModel.f_step] in Hrest. rewrite Li, X in Hrest. cbn [negb andb] in Hrest.
        unfold fake_client in Hrest. rewrite Fl in Hrest. discriminate. }
      pose proof (Hrest (FRecvEnd true) eq_refl) as Q. cbn [FakeModel.f_step] in Q. rewrite Li, Fa in Q. cbn [negb andb] in Q. unfold fake_client in Q.
      destruct (fk_down s) as [|b q].
      2:{ destruct (Rc b) as (c' & e' & Rb). rewrite Rb in Q. discriminate. }
      assert (Gn : fk_gone s = false). { destruct (fk_gone s); auto. cbn [orb] in Q. rewrite Fl in Q. discriminate. }
      repeat split; auto. destruct (c_sending (fk_client s)) as [f|] eqn:Es.
      - right. assert (Sn : fk_sending s = true).
        { destruct (fk_sending s) eqn:X; auto. specialize (Hrest FSendStart eq_refl). cbn [FakeModel.f_step] in Hrest. rewrite Es, X, Fa in Hrest. discriminate. }
        specialize (Hrest (FSendEnd true) eq_refl). cbn [FakeModel.f_step] in Hrest. rewrite Es, Sn, Fa, Gn in Hrest. cbn [negb andb] in Hrest.
        destruct (length (fk_up s) <? bound) eqn:X; [|apply Nat.ltb_ge in X; exact X].
        unfold fake_client in Hrest. cbn [step] in Hrest. rewrite Es in Hrest. discriminate.
      - left. split; auto. destruct (c_out (fk_client s)) eqn:X; auto.
        assert (Y : step cfg LOutPop (fk_client s) = None) by (apply fk_client_rest; [left; reflexivity|discriminate]).
        cbn [step] in Y. rewrite Es, X, Ao in Y. discriminate.
    Qed.
  End Rest.

  (** With replies and publications only, keys are never cut. *)
  Lemma full_arrived cl bs : only_replies bs -> (forall b, In b (received cl) -> In b bs) -> forall f, In f (arrived cl) ->
    exists key seq body, header_ok (MkHeader (VKey8 key) (Seq4 seq)) /\ In (fake_frame key seq body) bs /\ f = MkFrame (MkHeader (VKey8 key) (Seq4 seq)) body.
  Proof.
    intros Ho Hin f Hf. apply arrived_received in Hf as (b & B1 & B2). unfold only_replies in Ho. rewrite Forall_forall in Ho.
    destruct (Ho _ (Hin _ B1)) as (key & seq & body & K & ->). rewrite (fake_frame_of _ _ _ K) in B2. injection B2 as <-. eauto 8.
  Qed.
  Lemma full_kind cl c es bs kk : run cfg cl client_new = Some (c, es) -> only_replies bs -> (forall b, In b (received cl) -> In b bs) -> kind_seen es kk -> kk = KK8.
  Proof.
    intros R Ho Hin [K|(f & Hf & K)]; auto.
    assert (A : In f (arrived cl)). { eapply mi_in; [exact (reach_used _ _ _ _ R)|]. unfold used. apply in_app_iff. left. exact Hf. }
    destruct (full_arrived _ _ Ho Hin _ A) as (key & seq & body & _ & _ & ->). symmetry. exact K.
  Qed.
End L.
