(** Lemmas for HandleThm.v. *)
From Coq Require Import NArith List Bool Arith Lia.
From Verif Require Import KeyModel HeaderModel KeySpec HeaderSpec SubModel SubSpec SubProof ClientModel ClientSpec ClientProof ClientHist ClientMore ClientOut HandleModel HandleSpec.
Import ListNotations.

Lemma alive_some hs : some_alive hs = false -> forall h, alive hs h = false.
Proof.
  unfold some_alive, alive. intros H h. destruct (nth h (hs_alive hs) false) eqn:E; auto.
  assert (X : existsb (fun b => b) (hs_alive hs) = true); [|congruence].
  apply existsb_exists. exists true. split; auto. destruct (nth_in_or_default h (hs_alive hs) false) as [I|D]; congruence.
Qed.
Lemma some_held hs : some_alive hs = true <-> held hs.
Proof.
  split.
  - intros H. apply existsb_exists in H as (b & Hb & ->). apply In_nth with (d := false) in Hb as (h & _ & E). exists h. exact E.
  - intros (h & E). destruct (some_alive hs) eqn:X; auto. rewrite (alive_some _ X h) in E. discriminate.
Qed.
Lemma nth_set h h' (l : list bool) : nth h' (set_nth h false l) false = true -> nth h' l false = true.
Proof.
  intros E. destruct (Nat.eq_dec h h') as [->|N].
  - destruct (Nat.lt_ge_cases h' (length l)) as [G|G].
    + pose proof (set_nth_same _ h' false l G) as X. apply nth_error_nth with (d := false) in X. congruence.
    + rewrite nth_overflow in E; [discriminate|]. rewrite set_nth_length. auto.
  - pose proof (set_nth_other _ h h' false l N) as X.
    destruct (nth_error l h') as [b|] eqn:B.
    + rewrite (nth_error_nth _ _ false X) in E. rewrite (nth_error_nth _ _ false B). auto.
    + apply nth_error_None in B. rewrite nth_overflow in E; [discriminate|]. rewrite set_nth_length. auto.
Qed.
Lemma nth_set_eq h (l : list bool) : nth h (set_nth h false l) false = false.
Proof.
  destruct (Nat.lt_ge_cases h (length l)) as [G|G].
  - pose proof (set_nth_same _ h false l G) as X. apply nth_error_nth with (d := false) in X. congruence.
  - apply nth_overflow. rewrite set_nth_length. auto.
Qed.

(** *** A client whose last user is gone *)
Definition dead (c : Client) : Prop := c_stopped c = true /\ c_out_alive c = false /\ c_sending c = None /\ c_out c = [] /\ no_future c.

Ltac crush H :=
  repeat match type of H with context [match ?x with _ => _ end] =>
    lazymatch x with context [match _ with _ => _ end] => fail | _ => destruct x eqn:?; try discriminate end end;
  injection H as <- <-.

Lemma dead_step cfg l c c' e : step cfg l c = Some (c', e) -> is_call l = false -> dead c ->
  dead c' /\ accepted [l] [e] = [] /\ wire [e] = [] /\ results [e] = [] /\ (forall i, ~ In (EvPublished i false) e).
Proof.
  intros H Nc (D1 & D2 & D3 & D4 & D5 & D6). rewrite Forall_forall in D5, D6.
  assert (Rq : forall r q, nth_error (c_reqs c) r = Some q -> rq_pc q = PEnded) by (intros r q E; apply D5; eapply nth_error_In; eauto).
  assert (Pb : forall i f, nth_error (c_pubs c) i <> Some (Some f)) by (intros i f E; apply nth_error_In in E; apply D6 in E; discriminate).
  destruct l; try discriminate Nc; cbn [step] in H.
  all: try (destruct (nth_error (c_reqs c) r) as [q|] eqn:Hq; [|discriminate]; rewrite (Rq _ _ Hq) in H; discriminate).
  all: try (destruct (nth_error (c_pubs c) i) as [[f|]|] eqn:Hi; try discriminate; destruct (Pb _ _ Hi)).
  all: rewrite ?D3, ?D4 in H; try discriminate.
  all: try (rewrite D2 in H; rewrite andb_false_r in H; discriminate).
  all: try (crush H; split; [|split; [reflexivity|split; [reflexivity|split; [reflexivity|try (intros ? []; fail)]]]];
    unfold dead, no_future; cbn; rewrite ?Forall_forall; repeat split; auto; fail).
  - crush H; (split; [|split; [reflexivity|split; [reflexivity|split; [reflexivity|try (intros ? []; fail)]]]]); unfold dead, no_future; cbn; rewrite ?Forall_forall; repeat split; auto.
  - (* a request that ended is woken *)
    destruct (c_offer c) as [f|]; [|discriminate]. destruct choice as [i|].
    + destruct (nth_error (c_waiters c) i) as [w|]; [|discriminate]. destruct (header_eqb _ _); [|discriminate].
      destruct (nth_error (c_reqs c) (w_req w)) as [q|] eqn:Hq; [|discriminate]. injection H as <- <-.
      split; [|split; [reflexivity|split; [reflexivity|split; [reflexivity|intros ? []]]]].
      unfold dead, no_future. cbn. rewrite ?Forall_forall. repeat split; auto.
      intros x Hx. apply in_set_nth in Hx as [->|Hx]; auto. destruct (w_err w); cbn; eapply Rq; eauto.
    + destruct (existsb _ _); [discriminate|]. injection H as <- <-.
      split; [|split; [reflexivity|split; [reflexivity|split; [reflexivity|intros ? [X|[]]; discriminate]]]].
      unfold dead, no_future. cbn. rewrite ?Forall_forall. repeat split; auto.
  - destruct (user_op o); [|discriminate]. destruct (sub_step _ _ _) as [[s out]|]; [|discriminate]. injection H as <- <-.
    split; [|split; [destruct out; reflexivity|split; [reflexivity|split; [reflexivity|intros ? [X|[]]; discriminate]]]].
    unfold dead, no_future. cbn. rewrite ?Forall_forall. repeat split; auto.
Qed.

(** A step of an open client, without a failure of the transport. *)
Lemma open_step cfg l c c' e : step cfg l c = Some (c', e) -> c_stopped c = false -> c_out_alive c = true -> l <> LClose -> l <> LInFail -> (forall b, l <> LOutFail b) ->
  c_stopped c' = false /\ (forall r, ~ In (r, Closed) (results [e])) /\ forall i, ~ In (EvPublished i false) e.
Proof.
  intros H O A N1 N2 N3.
  assert (O' : c_stopped c' = false).
  { destruct l; cbn [step] in H; try congruence; unfold out_gone, in_gone in H; rewrite ?O in H; cbn [andb] in H; try discriminate;
      repeat match type of H with
      | context [match ?x with _ => _ end] => lazymatch x with context [match _ with _ => _ end] => fail | _ => destruct x; try discriminate end
      end; injection H as <- <-; solve [exact O | reflexivity | unfold adopt; destruct (negb _); exact O]. }
  split; [exact O'|].
  destruct l; cbn [step] in H; rewrite ?O, ?A in H; cbn [negb andb] in H; try congruence;
    repeat match type of H with
    | context [match ?x with _ => _ end] => lazymatch x with context [match _ with _ => _ end] => fail | _ => destruct x eqn:?; try discriminate end
    end; injection H as <- <-; (split; [intros ?|intros ?]); cbn; try (intros []; fail); intros [X|[]]; discriminate.
Qed.

Section Layer.
  Context {State L : Type}.
  Variable cfg : Config.
  Variable step_below : L -> State -> option (State * option (Label * list Ev)).
  Variable client_of : State -> Client.
  Variable as_below : Label -> L.
  Variable call_below : L -> bool.
  Hypothesis CC : contains_client cfg step_below client_of as_below call_below.
  Notation HState := (HState State).
  Notation h_step := (h_step State L step_below client_of as_below call_below).
  Notation h_run := (h_run State L step_below client_of as_below call_below).
  Notation h_client := (h_client State client_of).
  Notation h_handles := (h_handles State).
  Notation h_below := (h_below State).

  Lemma h_ind (P : list (HLabel L) -> HState -> list Label -> list (list Ev) -> Prop) s0 :
    P [] s0 [] [] ->
    (forall ls s cl es l s' x, h_run ls s0 = Some (s, cl, es) -> P ls s cl es -> h_step l s = Some (s', x) -> P (ls ++ [l]) s' (cl ++ map fst x) (es ++ map snd x)) ->
    forall ls s cl es, h_run ls s0 = Some (s, cl, es) -> P ls s cl es.
  Proof.
    intros H0 HS.
    assert (G : forall ls0 s1 cl0 es0, h_run ls0 s0 = Some (s1, cl0, es0) -> P ls0 s1 cl0 es0 ->
      forall ls s cl es, h_run ls s1 = Some (s, cl, es) -> P (ls0 ++ ls) s (cl0 ++ cl) (es0 ++ es)).
    { intros ls0 s1 cl0 es0 R0 P0 ls. revert ls0 s1 cl0 es0 R0 P0. induction ls as [|l ls IH]; intros ls0 s1 cl0 es0 R0 P0 s cl es H; cbn in H.
      - injection H as <- <- <-. rewrite !app_nil_r. exact P0.
      - destruct (h_step l s1) as [[s2 x]|] eqn:E; [|discriminate]. destruct (h_run ls s2) as [[[s3 cl3] es3]|] eqn:R; [|discriminate]. injection H as <- <- <-.
        rewrite !app_assoc. change (l :: ls) with ([l] ++ ls). rewrite app_assoc. eapply IH; [|eapply HS; eauto|exact R].
        clear - R0 E. revert s0 cl0 es0 R0. induction ls0 as [|a ls0 IH]; intros s0 cl0 es0 R0; cbn in *.
        + injection R0 as <- <- <-. rewrite E. cbn. rewrite !app_nil_r. reflexivity.
        + destruct (h_step a s0) as [[s4 y]|]; [|discriminate]. destruct (h_run ls0 s4) as [[[s5 c5] e5]|] eqn:R; [|discriminate]. injection R0 as <- <- <-.
          rewrite (IH _ _ _ R), !app_assoc. reflexivity. }
    intros ls s cl es H. apply (G [] s0 [] [] eq_refl H0 ls s cl es H).
  Qed.

  (** Either nothing happens to the client, or one step of it, or it ends. *)
  Inductive client_did (l : HLabel L) (s s' : HState) : list (Label * list Ev) -> Prop :=
  | did_nothing : h_client s' = h_client s -> client_did l s s' []
  | did_step x e : step cfg x (h_client s) = Some (h_client s', e) -> (is_call x = false \/ exists h, l = HCall L h x /\ alive (h_handles s) h = true) -> client_did l s s' [(x, e)]
  | did_end c1 : l = HEnd L -> some_alive (h_handles s) = false -> c_sending (h_client s) = None -> c_out (h_client s) = [] -> c_out_alive (h_client s) = true ->
      step cfg LClose (h_client s) = Some (c1, []) -> step cfg (LOutEnd false) c1 = Some (h_client s', []) ->
      client_did l s s' [(LClose, []); (LOutEnd false, [])].

  Lemma did l s s' x : h_step l s = Some (s', x) -> client_did l s s' x.
  Proof.
    unfold HandleModel.h_step. intros H. destruct l as [h|h|h y|y| |h|i|i].
    - destruct (alive _ _); [|discriminate]. injection H as <- <-. constructor. reflexivity.
    - destruct (_ && _)%bool; [|discriminate]. injection H as <- <-. constructor. reflexivity.
    - destruct (alive (h_handles s) h) eqn:A; [|discriminate]. destruct (is_call y) eqn:Cy; [|discriminate]. cbn [andb] in H.
      destruct (step_below _ _) as [[s1 ce]|] eqn:E; [|discriminate]. injection H as <- <-. destruct (cc_as _ _ _ _ _ CC _ _ _ _ E) as (e & ->).
      apply (cc_step _ _ _ _ _ CC) in E. constructor; eauto.
    - destruct (call_below y) eqn:Cy; [discriminate|]. destruct (step_below y _) as [[s1 [[z e]|]]|] eqn:E; [| |discriminate]; injection H as <- <-.
      + cbn. constructor; [exact (cc_step _ _ _ _ _ CC _ _ _ _ _ E)|]. left. exact (cc_call _ _ _ _ _ CC _ _ _ _ _ Cy E).
      + constructor. exact (cc_none _ _ _ _ _ CC _ _ _ E).
    - destruct (c_sending (h_client s)) eqn:S1; [discriminate|]. destruct (c_out (h_client s)) eqn:S2; [|discriminate].
      destruct (some_alive (h_handles s)) eqn:S3; [discriminate|]. destruct (c_out_alive (h_client s)) eqn:S4; [|discriminate]. cbn [negb andb] in H.
      destruct (step_below (as_below LClose) _) as [[s1 ce1]|] eqn:E1; [|discriminate]. destruct (step_below (as_below (LOutEnd false)) s1) as [[s2 ce2]|] eqn:E2; [|discriminate].
      injection H as <- <-. destruct (cc_as _ _ _ _ _ CC _ _ _ _ E1) as (e1 & ->). destruct (cc_as _ _ _ _ _ CC _ _ _ _ E2) as (e2 & ->).
      apply (cc_step _ _ _ _ _ CC) in E1. apply (cc_step _ _ _ _ _ CC) in E2. fold (h_client s) in E1.
      assert (e1 = []) as -> by (cbn [step] in E1; injection E1 as _ <-; reflexivity).
      assert (e2 = []) as ->. { cbn [step] in E1. injection E1 as E1. rewrite <- E1 in E2. cbn in E2. rewrite S4, S1 in E2. injection E2 as _ <-. reflexivity. }
      cbn. eapply did_end; eauto.
    - destruct (alive _ _); [|discriminate]. injection H as <- <-. constructor. reflexivity.
    - destruct (nth_error _ _) as [[w|]|]; try discriminate. destruct (c_stopped _); [|discriminate]. injection H as <- <-. constructor. reflexivity.
    - destruct (nth_error _ _) as [[w|]|]; try discriminate. injection H as <- <-. constructor. reflexivity.
  Qed.
  Lemma did_run l s s' x : client_did l s s' x -> run cfg (map fst x) (h_client s) = Some (h_client s', map snd x).
  Proof.
    intros [E|y e E _|c1 _ _ _ _ _ E1 E2]; cbn [map fst snd run].
    - rewrite E. reflexivity.
    - rewrite E. reflexivity.
    - rewrite E1, E2. reflexivity.
  Qed.

  (** Futures borrow handles that are alive. *)
  Record HInv (s : HState) (cl : list Label) (es : list (list Ev)) : Prop := {
    hi_run : run cfg cl client_new = Some (h_client s, es);
    hi_reqs : length (hs_reqs (h_handles s)) = length (c_reqs (h_client s));
    hi_pubs : length (hs_pubs (h_handles s)) = length (c_pubs (h_client s));
    hi_req : forall r q h, nth_error (c_reqs (h_client s)) r = Some q -> rq_pc q <> PEnded -> nth_error (hs_reqs (h_handles s)) r = Some h -> alive (h_handles s) h = true;
    hi_pub : forall i f h, nth_error (c_pubs (h_client s)) i = Some (Some f) -> nth_error (hs_pubs (h_handles s)) i = Some h -> alive (h_handles s) h = true;
    hi_wait : forall i h, nth_error (hs_waits (h_handles s)) i = Some (Some h) -> alive (h_handles s) h = true }.

  Lemma nth_combine {A B} (l1 : list A) : forall (l2 : list B) i a b, nth_error l1 i = Some a -> nth_error l2 i = Some b -> In (a, b) (combine l1 l2).
  Proof. induction l1 as [|x l1 IH]; intros [|y l2] [|i] a b H1 H2; cbn in *; try discriminate; [injection H1 as ->; injection H2 as ->; auto|right; eapply IH; eauto]. Qed.
  Lemma borrows hs c h : borrowed hs c h = false ->
    (forall r q, nth_error (c_reqs c) r = Some q -> rq_pc q <> PEnded -> nth_error (hs_reqs hs) r <> Some h) /\
    (forall i f, nth_error (c_pubs c) i = Some (Some f) -> nth_error (hs_pubs hs) i <> Some h) /\
    (forall i, nth_error (hs_waits hs) i <> Some (Some h)).
  Proof.
    unfold borrowed. intros H. apply orb_false_iff in H as [H H3]. apply orb_false_iff in H as [H1 H2]. split; [|split].
    - intros r q Hq Hp Hh. enough (X : existsb (req_borrows h) (combine (c_reqs c) (hs_reqs hs)) = true) by congruence.
      apply existsb_exists. exists (q, h). split; [eapply nth_combine; eauto|]. unfold req_borrows. cbn. rewrite Nat.eqb_refl. destruct (rq_pc q) eqn:?; [reflexivity..|congruence].
    - intros i f Hf Hh. enough (X : existsb (pub_borrows h) (combine (c_pubs c) (hs_pubs hs)) = true) by congruence.
      apply existsb_exists. exists (Some f, h). split; [eapply nth_combine; eauto|]. unfold pub_borrows. cbn. rewrite Nat.eqb_refl. reflexivity.
    - intros i Hw. enough (X : existsb (wait_borrows h) (hs_waits hs) = true) by congruence.
      apply existsb_exists. exists (Some h). split; [eapply nth_error_In; eauto|]. cbn. apply Nat.eqb_refl.
  Qed.

  (** What a step of the client does to its futures. *)
  Lemma step_reqs l c c' e : step cfg l c = Some (c', e) -> CInv cfg c ->
    (issued 0 [l] <> [] /\ exists q, c_reqs c' = c_reqs c ++ [q]) \/
    (issued 0 [l] = [] /\ length (c_reqs c') = length (c_reqs c) /\
     forall r q', nth_error (c_reqs c') r = Some q' -> rq_pc q' <> PEnded -> exists q, nth_error (c_reqs c) r = Some q /\ rq_pc q <> PEnded).
  Proof.
    intros H HI.
    assert (G : issued 0 [l] = [] -> length (c_reqs c') = length (c_reqs c) ->
      forall r q', nth_error (c_reqs c') r = Some q' -> rq_pc q' <> PEnded -> exists q, nth_error (c_reqs c) r = Some q /\ rq_pc q <> PEnded).
    { intros _ L1 r q' Hq Hp. destruct (nth_error (c_reqs c) r) as [q|] eqn:E.
      - exists q. split; auto. intros P. destruct (step_ended _ _ _ _ _ r H HI) as [(q2 & Q1 & Q2) _]; [exists q; auto|]. congruence.
      - apply nth_error_None in E. assert (r < length (c_reqs c')) by (apply nth_error_Some; congruence). lia. }
    destruct l; cbn [step] in H;
      try (injection H as <- <-; left; split; [discriminate|eexists; reflexivity]);
      (right; split; [reflexivity|]; refine ((fun K => conj K (G eq_refl K)) _); crush H; unfold adopt; try destruct (negb (kkind_eqb _ _)); cbn; rewrite ?set_nth_length; auto).
  Qed.

  Lemma h_inv s0 : client_of s0 = client_new -> forall ls s cl es, h_run ls (h_new State s0) = Some (s, cl, es) -> HInv s cl es.
  Proof.
    intros H0. apply (h_ind (fun _ s cl es => HInv s cl es)).
    - split; cbn.
      + unfold HandleModel.h_client. cbn. rewrite H0. reflexivity.
      + unfold HandleModel.h_client. cbn. rewrite H0. reflexivity.
      + unfold HandleModel.h_client. cbn. rewrite H0. reflexivity.
      + intros r q h _ _ E. destruct r; discriminate.
      + intros i f h _ E. destruct i; discriminate.
      + intros i h E. destruct i; discriminate.
    - intros ls s cl es l s' x _ [I1 I2 I3 I4 I5 I6] St. pose proof (did _ _ _ _ St) as D. pose proof (did_run _ _ _ _ D) as R.
      assert (R' : run cfg (cl ++ map fst x) client_new = Some (h_client s', es ++ map snd x)) by (eapply run_app2; eauto).
      pose proof (reach_cinv _ _ _ _ I1) as HI.
      destruct D as [E|y e E Cy|c1 -> D1 D2 D3 D4 E1 E2].
      + (* the client is left alone *)
        rewrite E in R'. cbn in R'.
        assert (K : forall hs', h_handles s' = hs' -> h_client s' = h_client s -> length (hs_reqs hs') = length (hs_reqs (h_handles s)) -> length (hs_pubs hs') = length (hs_pubs (h_handles s)) ->
          hs_reqs hs' = hs_reqs (h_handles s) -> hs_pubs hs' = hs_pubs (h_handles s) ->
          (forall h, alive (h_handles s) h = true -> alive hs' h = true \/ borrowed (h_handles s) (h_client s) h = false) ->
          (forall i h, nth_error (hs_waits hs') i = Some (Some h) -> alive hs' h = true) -> HInv s' (cl ++ []) (es ++ [])).
        { intros hs' <- E' L1 L2 E1 E2 A W. split; rewrite ?E', ?E1, ?E2; auto; cbn.
          - intros r q h Hq Hp Hh. destruct (A h) as [X|X]; [eapply I4; eauto|exact X|]. destruct (borrows _ _ _ X) as (B & _). destruct (B _ _ Hq Hp Hh).
          - intros i f h Hq Hh. destruct (A h) as [X|X]; [eapply I5; eauto|exact X|]. destruct (borrows _ _ _ X) as (_ & B & _). destruct (B _ _ Hq Hh). }
        unfold HandleModel.h_step in St. destruct l as [h|h|h y|y| |h|i|i].
        * destruct (alive _ _) eqn:A; [|discriminate]. injection St as <-. eapply K; try reflexivity; cbn.
          -- intros h' X. left. unfold alive in *. cbn. rewrite app_nth1; auto. destruct (Nat.lt_ge_cases h' (length (hs_alive (h_handles s)))) as [G|G]; auto. rewrite nth_overflow in X; [discriminate|auto].
          -- intros i' h' X. apply I6 in X. unfold alive in *. cbn. rewrite app_nth1; auto. destruct (Nat.lt_ge_cases h' (length (hs_alive (h_handles s)))) as [G|G]; auto. rewrite nth_overflow in X; [discriminate|auto].
        * destruct (alive _ h) eqn:A; [|discriminate]. destruct (borrowed _ _ h) eqn:B; [discriminate|]. cbn in St. injection St as <-. eapply K; try reflexivity; cbn.
          -- intros h' X. destruct (Nat.eq_dec h h') as [<-|N]; [right; exact B|left]. unfold alive in *. cbn.
             destruct (nth_error (hs_alive (h_handles s)) h') as [b|] eqn:F; [|apply nth_error_None in F; rewrite nth_overflow in X; [discriminate|auto]].
             pose proof (nth_error_nth _ _ false F) as G. rewrite <- (set_nth_other _ h h' false _ N) in F. rewrite (nth_error_nth _ _ false F). congruence.
          -- intros i' h' X. pose proof (I6 _ _ X) as Y. destruct (Nat.eq_dec h h') as [<-|N].
             { destruct (borrows _ _ _ B) as (_ & _ & B'). destruct (B' _ X). }
             unfold alive in *. cbn. destruct (nth_error (hs_alive (h_handles s)) h') as [b|] eqn:F; [|apply nth_error_None in F; rewrite nth_overflow in Y; [discriminate|auto]].
             pose proof (nth_error_nth _ _ false F) as G. rewrite <- (set_nth_other _ h h' false _ N) in F. rewrite (nth_error_nth _ _ false F). congruence.
        * exfalso. destruct (_ && _)%bool; [|discriminate]. destruct (step_below _ _) as [[s1 ce]|] eqn:Eb; [|discriminate]. destruct (cc_as _ _ _ _ _ CC _ _ _ _ Eb) as (e & ->). discriminate St.
        * destruct (call_below y); [discriminate|]. destruct (step_below y _) as [[s1 ce]|]; [|discriminate]. injection St as <- _. eapply K; try reflexivity; auto.
        * exfalso. destruct (c_sending _); [discriminate|]. destruct (c_out _); [|discriminate]. destruct (_ && _)%bool; [|discriminate].
          destruct (step_below (as_below LClose) _) as [[s1 ce]|] eqn:Eb; [|discriminate]. destruct (step_below _ s1) as [[s2 ce2]|]; [|discriminate]. destruct (cc_as _ _ _ _ _ CC _ _ _ _ Eb) as (e & ->). discriminate St.
        * destruct (alive _ _) eqn:A; [|discriminate]. injection St as <-. eapply K; try reflexivity; cbn; auto.
          intros i' h' X. apply nth_app_last in X as [X|[_ X]]; [eapply I6; eauto|]. injection X as ->. exact A.
        * destruct (nth_error _ i) as [[w|]|] eqn:N; try discriminate. destruct (c_stopped _); [|discriminate]. injection St as <-. eapply K; try reflexivity; cbn; auto.
          intros i' h' X. apply set_nth_inv in X as [[_ X]|[_ X]]; [discriminate|eapply I6; eauto].
        * destruct (nth_error _ i) as [[w|]|] eqn:N; try discriminate. injection St as <-. eapply K; try reflexivity; cbn; auto.
          intros i' h' X. apply set_nth_inv in X as [[_ X]|[_ X]]; [discriminate|eapply I6; eauto].
      + (* one step of the client *)
        cbn [map fst snd] in R'.
        assert (Hh : (is_call y = false /\ h_handles s' = h_handles s) \/ exists h, l = HCall L h y /\ alive (h_handles s) h = true /\ h_handles s' = called h y (h_handles s)).
        { unfold HandleModel.h_step in St. destruct l as [h|h|h z|z| |h|i|i].
          - destruct (alive _ _); discriminate.
          - destruct (_ && _)%bool; discriminate.
          - destruct (_ && _)%bool; [|discriminate]. destruct (step_below _ _) as [[s1 ce]|] eqn:Eb; [|discriminate]. destruct (cc_as _ _ _ _ _ CC _ _ _ _ Eb) as (e' & ->). injection St as <- -> ->.
            destruct Cy as [Cy|(h' & Cy & A)]; [left|right].
            + split; auto. cbn. destruct y; try discriminate Cy; reflexivity.
            + injection Cy as ->. exists h'. auto.
          - destruct (call_below z); [discriminate|]. destruct (step_below z _) as [[s1 ce]|] eqn:Eb; [|discriminate]. injection St as <- Ex. left. split; [|reflexivity].
            destruct Cy as [Cy|(h' & Cy & _)]; [auto|discriminate Cy].
          - exfalso. destruct (c_sending _); [discriminate|]. destruct (c_out _); [|discriminate]. destruct (_ && _)%bool; [|discriminate].
            destruct (step_below (as_below LClose) _) as [[s1 ce]|] eqn:Eb; [|discriminate]. destruct (step_below _ s1) as [[s2 ce2]|] eqn:Eb2; [|discriminate]. destruct (cc_as _ _ _ _ _ CC _ _ _ _ Eb) as (e' & ->). destruct (cc_as _ _ _ _ _ CC _ _ _ _ Eb2) as (e2' & ->). discriminate St.
          - destruct (alive _ _); discriminate.
          - destruct (nth_error _ _) as [[w|]|]; try discriminate. destruct (c_stopped _); discriminate.
          - destruct (nth_error _ _) as [[w|]|]; discriminate. }
        pose proof (step_reqs _ _ _ _ E HI) as SR. pose proof (step_pubs _ _ _ _ _ E) as SP.
        destruct Hh as [[Nc Eh]|(h & -> & Ah & Eh)].
        * assert (Ni : issued 0 [y] = [] /\ published [y] = []) by (destruct y; try discriminate Nc; auto). destruct Ni as [Ni Np].
          destruct SR as [[X _]|(_ & L1 & M1)]; [congruence|]. destruct SP as [(f & -> & _)|(_ & L2 & M2)]; [discriminate|].
          split; cbn [map fst snd]; rewrite ?Eh; auto; try congruence.
          -- intros r q' h Hq Hp Hh. destruct (M1 _ _ Hq Hp) as (q & Q1 & Q2). eapply I4; eauto.
          -- intros i f h Hf Hh. eapply I5; eauto.
        * assert (Al : forall h', alive (called h y (h_handles s)) h' = alive (h_handles s) h') by (intros h'; destruct y; reflexivity).
          assert (Ws : hs_waits (called h y (h_handles s)) = hs_waits (h_handles s)) by (destruct y; reflexivity).
          assert (Rs : hs_reqs (called h y (h_handles s)) = hs_reqs (h_handles s) ++ (if issued 0 [y] then [] else [h])) by (destruct y; cbn; rewrite ?app_nil_r; reflexivity).
          assert (Ps : hs_pubs (called h y (h_handles s)) = hs_pubs (h_handles s) ++ (if published [y] then [] else [h])) by (destruct y; cbn; rewrite ?app_nil_r; reflexivity).
          split; cbn [map fst snd]; rewrite ?Eh, ?Rs, ?Ps, ?Ws; auto.
          -- rewrite app_length. destruct SR as [(X & q & ->)|(X & L1 & _)].
             ++ rewrite app_length. destruct (issued 0 [y]); [congruence|]. cbn. lia.
             ++ rewrite X. cbn. lia.
          -- rewrite app_length. destruct SP as [(f & -> & ->)|(X & L1 & _)].
             ++ rewrite app_length. cbn. lia.
             ++ rewrite X. cbn. lia.
          -- intros r q' h' Hq Hp Hh. rewrite Al. destruct SR as [(X & q & Eq)|(X & L1 & M1)].
             ++ destruct (issued 0 [y]); [congruence|]. apply nth_app_last in Hh as [Hh|[-> ->]]; [|exact Ah].
                rewrite Eq in Hq. apply nth_app_last in Hq as [Hq|[-> _]]; [eapply I4; eauto|]. rewrite <- I2 in Hh. assert (length (hs_reqs (h_handles s)) < length (hs_reqs (h_handles s))) by (apply nth_error_Some; congruence). lia.
             ++ rewrite X, app_nil_r in Hh. destruct (M1 _ _ Hq Hp) as (q & Q1 & Q2). eapply I4; eauto.
          -- intros i f h' Hf Hh. rewrite Al. destruct SP as [(g & -> & Eq)|(X & L1 & M1)].
             ++ cbn in Hh. apply nth_app_last in Hh as [Hh|[-> ->]]; [|exact Ah].
                rewrite Eq in Hf. apply nth_app_last in Hf as [Hf|[-> _]]; [eapply I5; eauto|]. rewrite <- I3 in Hh. assert (length (hs_pubs (h_handles s)) < length (hs_pubs (h_handles s))) by (apply nth_error_Some; congruence). lia.
             ++ rewrite X, app_nil_r in Hh. eapply I5; eauto.
          -- intros i h' Hw. rewrite Al. eapply I6; eauto.
      + (* the end *)
        assert (Eh : h_handles s' = h_handles s).
        { unfold HandleModel.h_step in St. destruct (c_sending _); [discriminate|]. destruct (c_out _); [|discriminate]. destruct (_ && _)%bool; [|discriminate].
          destruct (step_below (as_below LClose) _) as [[s1 ce]|]; [|discriminate]. destruct (step_below _ s1) as [[s2 ce2]|]; [|discriminate]. injection St as <- _. reflexivity. }
        cbn [step] in E1. injection E1 as <-. cbn [step] in E2. cbn in E2. rewrite D4, D2 in E2. injection E2 as E2.
        split; auto; rewrite ?Eh; rewrite <- ?E2; cbn; auto.
  Qed.

  (** Nobody is alive: no future is left. *)
  Lemma none_alive s cl es : HInv s cl es -> some_alive (h_handles s) = false ->
    no_future (h_client s) /\ (forall i h, nth_error (hs_waits (h_handles s)) i <> Some (Some h)).
  Proof.
    intros [I1 I2 I3 I4 I5 I6] A. pose proof (alive_some _ A) as N. split; [split|].
    - apply Forall_forall. intros q Hq. apply In_nth_error in Hq as (r & Hq).
      destruct (nth_error (hs_reqs (h_handles s)) r) as [h|] eqn:Hh.
      + destruct (rq_pc q) eqn:P; auto; (assert (X : rq_pc q <> PEnded) by congruence; pose proof (I4 _ _ _ Hq X Hh) as Y; rewrite N in Y; discriminate).
      + apply nth_error_None in Hh. assert (r < length (c_reqs (h_client s))) by (apply nth_error_Some; congruence). lia.
    - apply Forall_forall. intros [f|] Hf; auto. apply In_nth_error in Hf as (i & Hf).
      destruct (nth_error (hs_pubs (h_handles s)) i) as [h|] eqn:Hh.
      + specialize (I5 _ _ _ Hf Hh). rewrite N in I5. discriminate.
      + apply nth_error_None in Hh. assert (i < length (c_pubs (h_client s))) by (apply nth_error_Some; congruence). lia.
    - intros i h Hi. apply I6 in Hi. rewrite N in Hi. discriminate.
  Qed.

  (** The handles that are alive, after a step. *)
  Lemma none_stays l s s' x : h_step l s = Some (s', x) -> some_alive (h_handles s) = false -> some_alive (h_handles s') = false.
  Proof.
    intros St A. pose proof (alive_some _ A) as N.
    assert (K : forall hs', hs_alive hs' = hs_alive (h_handles s) -> some_alive hs' = false) by (intros hs' E; unfold some_alive; rewrite E; exact A).
    unfold HandleModel.h_step in St. destruct l as [h|h|h y|y| |h|i|i].
    - rewrite N in St. discriminate.
    - rewrite N in St. discriminate.
    - rewrite N in St. discriminate.
    - destruct (call_below y); [discriminate|]. destruct (step_below y _) as [[s1 ce]|]; [|discriminate]. injection St as <- _. exact A.
    - destruct (c_sending _); [discriminate|]. destruct (c_out _); [|discriminate]. destruct (_ && _)%bool; [|discriminate].
      destruct (step_below (as_below LClose) _) as [[s1 ce]|]; [|discriminate]. destruct (step_below _ s1) as [[s2 ce2]|]; [|discriminate]. injection St as <- _. exact A.
    - rewrite N in St. discriminate.
    - destruct (nth_error _ _) as [[w|]|]; try discriminate. destruct (c_stopped _); [|discriminate]. injection St as <- _. apply K. reflexivity.
    - destruct (nth_error _ _) as [[w|]|]; try discriminate. injection St as <- _. apply K. reflexivity.
  Qed.

  (** Unless the user closes it or the transport fails, the client is open, or the last
      handle is gone and everything was sent. *)
  Definition Open (ls : list (HLabel L)) (s : HState) (cl : list Label) (es : list (list Ev)) : Prop :=
    ~ user_closed ls -> ~ transport_failed cl ->
    nobody_refused es /\
    (c_stopped (h_client s) = false \/
     (In (HEnd L) ls /\ some_alive (h_handles s) = false /\ dead (h_client s) /\ everything_sent cl es)).

  Lemma h_open s0 : client_of s0 = client_new -> forall ls s cl es, h_run ls (h_new State s0) = Some (s, cl, es) -> Open ls s cl es.
  Proof.
    intros H0. apply (h_ind Open).
    - intros _ _. split; [split; [intros r []|intros i []]|]. left. unfold HandleModel.h_client. cbn. rewrite H0. reflexivity.
    - intros ls s cl es l s' x R IH St Nu Nt. pose proof (h_inv _ H0 _ _ _ _ R) as HV.
      destruct IH as ((Q1 & Q2) & IH).
      { intros (h & Hh). apply Nu. exists h. apply in_app_iff. auto. }
      { intros [X|(b & X)]; apply Nt; [left|right; exists b]; apply in_app_iff; auto. }
      pose proof (did _ _ _ _ St) as D. pose proof (run_length _ _ _ _ _ (hi_run _ _ _ HV)) as RL.
      assert (Fut : forall y e, x = [(y, e)] -> y <> LInFail /\ (forall b, y <> LOutFail b)).
      { intros y e ->. split; [|intros b]; intros ->; apply Nt; [left|right; exists b]; apply in_app_iff; cbn; auto. }
      destruct D as [E|y e E Cy|c1 -> D1 D2 D3 D4 E1 E2].
      + cbn [map]. rewrite !app_nil_r, E. split; [split; auto|]. destruct IH as [IH|(X1 & X2 & X3 & X4)]; auto. right.
        split; [apply in_app_iff; auto|]. split; [eapply none_stays; eauto|auto].
      + destruct (Fut _ _ eq_refl) as [F1 F2]. cbn [map fst snd]. destruct IH as [O|(X1 & X2 & X3 & X4)].
        * assert (Nl : y <> LClose).
          { intros ->. destruct Cy as [Cy|(h & -> & _)]; [discriminate|]. apply Nu. exists h. apply in_app_iff. cbn. auto. }
          assert (Ao : c_out_alive (h_client s) = true). { destruct (c_out_alive (h_client s)) eqn:A; auto. rewrite (proj1 (reach_finv _ _ _ _ (hi_run _ _ _ HV)) A) in O. discriminate. }
          destruct (open_step _ _ _ _ _ E O Ao Nl F1 F2) as (O' & Z1 & Z2). split; [|left; exact O']. split.
          -- intros r Hr. rewrite results_app in Hr. apply in_app_iff in Hr as [Hr|Hr]; [exact (Q1 _ Hr)|exact (Z1 _ Hr)].
          -- intros i Hi. rewrite concat_app in Hi. apply in_app_iff in Hi as [Hi|Hi]; [exact (Q2 _ Hi)|]. cbn in Hi. rewrite app_nil_r in Hi. exact (Z2 _ Hi).
        * assert (Nc : is_call y = false). { destruct Cy as [Cy|(h & -> & A)]; auto. rewrite (alive_some _ X2) in A. discriminate. }
          destruct (dead_step _ _ _ _ _ E Nc X3) as (Y1 & Y2 & Y3 & Y4 & Y5). split; [split|right].
          -- intros r Hr. rewrite results_app, Y4, app_nil_r in Hr. exact (Q1 _ Hr).
          -- intros i Hi. rewrite concat_app in Hi. apply in_app_iff in Hi as [Hi|Hi]; [exact (Q2 _ Hi)|]. cbn in Hi. rewrite app_nil_r in Hi. exact (Y5 _ Hi).
          -- split; [apply in_app_iff; auto|]. split; [eapply none_stays; eauto|]. split; auto.
             destruct X4 as (frames & G1 & G2). exists frames. rewrite (accepted_app _ _ _ _ RL), Y2, app_nil_r. split; [apply Forall2_frame_mono; auto|].
             rewrite wire_app, Y3, app_nil_r. exact G2.
      + cbn [map fst snd]. destruct IH as [O|(_ & _ & X3 & _)]; [|destruct X3 as (_ & X3 & _); congruence].
        split; [split|right].
        * intros r Hr. rewrite results_app in Hr. apply in_app_iff in Hr as [Hr|[]]. exact (Q1 _ Hr).
        * intros i Hi. rewrite concat_app in Hi. apply in_app_iff in Hi as [Hi|[]]. exact (Q2 _ Hi).
        * split; [apply in_app_iff; cbn; auto|]. split; [eapply none_stays; eauto|].
          destruct (none_alive _ _ _ HV D1) as (NF & _).
          cbn [step] in E1. injection E1 as <-. cbn [step] in E2. cbn in E2. rewrite D4, D2 in E2. injection E2 as E2. rewrite <- E2.
          split; [unfold dead; cbn; repeat split; auto; apply NF|].
          destruct (reach_out _ _ _ _ (hi_run _ _ _ HV)) as ((acc & lost & A1 & A2 & A3 & _) & _). rewrite (A3 D4) in A2. unfold queued in A2. rewrite D2, D3 in A2. cbn in A2. rewrite app_nil_r in A2.
          exists acc. rewrite (accepted_app _ _ _ _ RL), wire_app. cbn [accepted]. rewrite app_nil_r. split; [apply Forall2_frame_mono; auto|]. cbn. rewrite app_nil_r. auto.
  Qed.
End Layer.
