(** Exactly which subscriptions an arriving message removes (C40). *)
From Coq Require Import NArith List Bool Arith Lia.
From Verif Require Import KeyModel HeaderModel KeySpec KeyProof SubModel SubSpec SubProof SubThm SubThm2 SubThm3.
Import ListNotations.

(** [e] is the first of [l] whose key the message [f] matches: the one the message is
    offered to. *)
Definition offered_to (f : RpcFrame) (l : list (Key8 * nat)) (e : Key8 * nat) : Prop :=
  exists l1 l2, l = l1 ++ e :: l2 /\ of_topic (fst e) f = true /\ Forall (fun x => of_topic (fst x) f = false) l1.

Lemma offered_find f l e : offered_to f l e <-> find (key_matches (hdr_key (f_hdr f))) l = Some e.
Proof.
  split.
  - intros (l1 & l2 & -> & O & F). induction F as [|x l1 Hx F IH]; cbn [app find].
    + unfold key_matches. fold (of_topic (fst e) f). now rewrite O.
    + unfold key_matches at 1. fold (of_topic (fst x) f). now rewrite Hx.
  - induction l as [|x l IH]; [discriminate|]. cbn [find]. unfold key_matches at 1. fold (of_topic (fst x) f).
    destruct (of_topic (fst x) f) eqn:O.
    + intros [= <-]. exists [], l. auto.
    + intros H. destruct (IH H) as (l1 & l2 & -> & O' & F). exists (x :: l1), l2. auto.
Qed.

Lemma retain_in f b l e : In e (retain b (hdr_key (f_hdr f)) l) <-> In e l /\ ~ (of_topic (fst e) f = true /\ b = true).
Proof.
  unfold retain. destruct b.
  - rewrite filter_In. unfold key_matches. fold (of_topic (fst e) f). destruct (of_topic (fst e) f); cbn [negb].
    + split; [intros [_ X]; discriminate X|intros [_ X]; exfalso; apply X; auto].
    + split; intros [A _]; (split; [exact A|]); [intros [X _]; discriminate X|reflexivity].
  - split; [intros A; split; [exact A|intros [_ X]; discriminate X]|intros [A _]; exact A].
Qed.

(** A message removes exclusive subscriptions if and only if it is offered to one whose user has dropped
    it; it then removes exactly those whose keys it matches.  The same for broadcast channels: it is
    offered to one that has no receiver left (the removal is put off while the message waits for room
    in the queue of an exclusive subscriber). *)
Theorem C40_removed_iff_partial :
  forall no_wait f s s' d,
    sub_step no_wait (Deliver f) s = Some (s', ODelivery d) ->
    (forall e, In e (exclusive_list s') <->
       In e (exclusive_list s) /\
       ~ (of_topic (fst e) f = true /\ exists o, offered_to f (exclusive_list s) o /\ x_alive (snd o) s = false)) /\
    (d <> Blocking -> forall e, In e (broadcast_list s') <->
       In e (broadcast_list s) /\
       ~ (of_topic (fst e) f = true /\ exists o, offered_to f (broadcast_list s) o /\
            forall r, In r (s_mrxs s) -> r_alive r = true -> r_chan r <> snd o)) /\
    (d = Blocking -> broadcast_list s' = broadcast_list s).
Proof.
  intros nw f s s' d H. unfold sub_step in H.
  destruct (blocked s || s_stopped s)%bool; [discriminate|]. destruct (deliver nw f s) as [s1 d1] eqn:E. injection H as <- <-.
  rewrite deliver_eq in E. cbv zeta in E.
  assert (Uq : forall l o o', offered_to f l o -> offered_to f l o' -> o = o').
  { intros l o o' A B. apply offered_find in A, B. congruence. }
  assert (B : forall bs h1 rm, deliver_mul f s = (bs, h1, rm) ->
     (rm = true <-> exists o, offered_to f (broadcast_list s) o /\ forall r, In r (s_mrxs s) -> r_alive r = true -> r_chan r <> snd o)).
  { intros bs h1 rm. unfold deliver_mul. destruct (find (key_matches (hdr_key (f_hdr f))) (broadcast_list s)) as [[k c]|] eqn:F.
    - destruct (bcast_send c f s) as [bs' failed] eqn:Bs. intros X. injection X as <- <- <-.
      destruct (bcast_send_spec _ _ _ _ _ Bs) as (_ & T & Fa).
      apply offered_find in F. split.
      + intros ->. destruct (T eq_refl) as [R _]. exists (k, c). split; [exact F|]. cbn [snd]. intros r Ir Ar Ec.
        unfold has_receiver in R. rewrite <- not_true_iff_false in R. apply R. apply existsb_exists. exists r. split; [exact Ir|].
        now rewrite Ar, Ec, Nat.eqb_refl.
      + intros (o & O & N). rewrite (Uq _ _ _ O F) in N. cbn [snd] in N. destruct failed; [reflexivity|].
        destruct (Fa eq_refl) as [R _]. unfold has_receiver in R. apply existsb_exists in R. destruct R as (r & Ir & R).
        apply andb_true_iff in R. destruct R as [Ar Ec]. apply Nat.eqb_eq in Ec. exfalso. exact (N r Ir Ar Ec).
    - intros X. injection X as <- <- <-. split; [discriminate|]. intros (o & O & _). apply offered_find in O. congruence. }
  destruct (deliver_mul f s) as [[bs h1] rm] eqn:M. specialize (B _ _ _ eq_refl).
  assert (Bi : forall l, l = broadcast_list s -> forall e, In e (retain rm (hdr_key (f_hdr f)) l) <->
     In e (broadcast_list s) /\ ~ (of_topic (fst e) f = true /\ exists o, offered_to f (broadcast_list s) o /\
            forall r, In r (s_mrxs s) -> r_alive r = true -> r_chan r <> snd o)).
  { intros l -> e. rewrite retain_in, B. reflexivity. }
  destruct (find (key_matches (hdr_key (f_hdr f))) (exclusive_list s)) as [[k c]|] eqn:F.
  - apply offered_find in F.
    assert (A : forall e b, (b = true <-> x_alive c s = false) ->
      (In e (retain b (hdr_key (f_hdr f)) (exclusive_list s)) <-> In e (exclusive_list s) /\
       ~ (of_topic (fst e) f = true /\ exists o, offered_to f (exclusive_list s) o /\ x_alive (snd o) s = false))).
    { intros e b Hb. rewrite retain_in, Hb.
      assert (Z : x_alive c s = false <-> exists o, offered_to f (exclusive_list s) o /\ x_alive (snd o) s = false).
      { split; [intros Z; exists (k, c); auto|]. intros (o & O & Z). rewrite (Uq _ _ _ O F) in Z. exact Z. }
      now rewrite <- Z. }
    assert (Al : x_alive c s = match mpsc_try_send c f (s_chans s) with (_, TsClosed) => false | _ => true end).
    { unfold x_alive, mpsc_try_send. destruct (nth_error (s_chans s) c) as [ch|]; [|reflexivity].
      destruct (m_rx ch); [|reflexivity]. destruct (length (m_queue ch) <? m_cap ch); reflexivity. }
    destruct (mpsc_try_send c f (s_chans s)) as [chans r].
    destruct r; [|destruct nw|]; injection E as <- <-; cbn [finish exclusive_list broadcast_list].
    + split; [intros e; apply A; rewrite Al; split; discriminate|]. split; [intros _; now apply Bi|discriminate].
    + split; [intros e; apply A; rewrite Al; split; discriminate|]. split; [intros _; now apply Bi|discriminate].
    + split; [intros e|split; [intros X; now destruct X|reflexivity]].
      specialize (A e false). rewrite Al in A. cbn [retain] in A. apply A. split; discriminate.
    + split; [intros e; apply A; rewrite Al; tauto|]. split; [intros _; now apply Bi|discriminate].
  - injection E as <- <-. cbn [finish exclusive_list broadcast_list]. split; [|split].
    + intros e. cbn [retain]. split; [intros I; split; [exact I|]|intros [I _]; exact I].
      intros (_ & o & O & _). apply offered_find in O. congruence.
    + intros _. now apply Bi.
    + destruct h1; discriminate.
Qed.
Print Assumptions C40_removed_iff_partial.

(** Two subscriptions with keys that look the same on the wire: when the first is dropped,
    the next message removes both; when the second is dropped, neither. *)
Example C40_removed_iff_ex :
  let before := [SubscribeExclusive ka 1; SubscribeExclusive kc 1] in
  let after := fun id => match sub_run true (before ++ [DropX id; Deliver (short_frame 1%N [])]) subs_new with
                         | Some (s, _) => exclusive_list s | None => [(ka, 9)] end in
  after 0 = [] /\ after 1 = [(ka, 0); (kc, 1)].
Proof. vm_compute. auto. Qed.

(** ** Who is still receiving *)
Lemma set_nth_map A B (g : A -> B) n x l : map g (set_nth n x l) = set_nth n (g x) (map g l).
Proof. unfold set_nth. rewrite skipn_map. destruct (skipn n l); cbn [map]; [reflexivity|]. now rewrite map_app, firstn_map. Qed.
Lemma set_nth_id A n (x : A) l : nth_error l n = Some x -> set_nth n x l = l.
Proof.
  unfold set_nth. revert l. induction n as [|n IH]; intros [|y l] H; cbn in *; try discriminate; [now injection H as ->|].
  specialize (IH l H). destruct (skipn n l); [reflexivity|]. now rewrite IH.
Qed.

Definition x_flags (s : Subs) := map m_rx (s_chans s).
Definition m_flags (s : Subs) := map r_alive (s_mrxs s).
Lemma x_alive_flags id s : x_alive id s = true <-> nth_error (x_flags s) id = Some true.
Proof. unfold x_alive, x_flags. rewrite nth_error_map. destruct (nth_error (s_chans s) id) as [c|]; cbn; [|split; discriminate]. destruct (m_rx c); split; congruence. Qed.
Lemma m_alive_flags id s : m_alive id s = true <-> nth_error (m_flags s) id = Some true.
Proof. unfold m_alive, m_flags. rewrite nth_error_map. destruct (nth_error (s_mrxs s) id) as [c|]; cbn; [|split; discriminate]. destruct (r_alive c); split; congruence. Qed.

Lemma try_send_flags c f chans chans' r : mpsc_try_send c f chans = (chans', r) -> map m_rx chans' = map m_rx chans.
Proof.
  intros H. destruct (try_send_spec _ _ _ _ _ H) as (_ & N & M). destruct r; try (now rewrite N by discriminate).
  destruct M as (ch & E & R & _ & ->). rewrite set_nth_map. cbn [m_rx]. apply set_nth_id. now rewrite nth_error_map, E, <- R.
Qed.

Definition opens_x (e : SubOp * SubOut) (id : nat) : Prop :=
  match e with (SubscribeExclusive _ _, ORes (Subscribed i)) | (SubscribeLegacy _ _, ORes (Subscribed i)) => i = id | _ => False end.
Definition opens_m (e : SubOp * SubOut) (id : nat) : Prop :=
  match e with (SubscribeMulti _ _, ORes (Subscribed i)) => i = id | _ => False end.

(** What a step does to the flags. *)
Lemma flags_step nw o s s' out : sub_step nw o s = Some (s', out) ->
  ((opens_x (o, out) (length (x_flags s)) /\ x_flags s' = x_flags s ++ [true]) \/
   ((forall id, ~ opens_x (o, out) id) /\
    ((exists id, o = DropX id /\ nth_error (x_flags s) id = Some true /\ x_flags s' = set_nth id false (x_flags s)) \/
     (forall id, o <> DropX id) /\ x_flags s' = x_flags s))) /\
  ((opens_m (o, out) (length (m_flags s)) /\ m_flags s' = m_flags s ++ [true]) \/
   ((forall id, ~ opens_m (o, out) id) /\
    ((exists id, o = DropM id /\ nth_error (m_flags s) id = Some true /\ m_flags s' = set_nth id false (m_flags s)) \/
     (forall id, o <> DropM id) /\ m_flags s' = m_flags s))).
Proof.
  intros H. destruct o as [k d|k d|k d|f|w|id|id|id|id|]; unfold sub_step in H.
  1,2: destruct (blocked s); [discriminate|]; destruct (subscribe_mpsc _ k d s) as [s1 r] eqn:E; injection H as <- <-;
    (split; [|right; split; [intros id []|right; split; [discriminate|]];
       destruct (sub_mpsc_cases _ _ _ _ _ _ E) as [[-> _]|(_ & _ & _ & l & -> & _)]; reflexivity]);
    destruct (sub_mpsc_cases _ _ _ _ _ _ E) as [[-> [[_ ->]|[(_ & _ & ->)|(_ & _ & _ & -> & _)]]]|(_ & _ & -> & l & -> & _)];
    try (right; split; [intros id []|right; split; [discriminate|reflexivity]]);
    left; unfold x_flags; cbn [s_chans with_exclusive]; rewrite map_length, map_app; split; reflexivity.
  - destruct (blocked s); [discriminate|]. unfold subscribe_multi in H.
    destruct (s_stopped s); [injection H as <- <-; split; right; (split; [intros id []|right; split; [discriminate|reflexivity]])|].
    destruct (find _ _) as [[k0 c]|]; [|destruct d]; injection H as <- <-;
      (split; [right; split; [intros id []|right; split; [discriminate|reflexivity]]|]);
      try (right; split; [intros id []|right; split; [discriminate|reflexivity]]);
      left; unfold m_flags; cbn [s_mrxs]; rewrite map_length, map_app; split; reflexivity.
  - destruct (blocked s || s_stopped s)%bool; [discriminate|]. destruct (deliver nw f s) as [s1 d] eqn:E. injection H as <- <-.
    rewrite deliver_eq in E. cbv zeta in E. destruct (deliver_mul f s) as [[bs h1] rm].
    assert (Q : x_flags s1 = x_flags s /\ m_flags s1 = m_flags s).
    { unfold x_flags, m_flags. destruct (find _ (exclusive_list s)) as [[k c]|]; [|injection E as <- <-; cbn; auto].
      destruct (mpsc_try_send c f (s_chans s)) as [chans r] eqn:T. apply try_send_flags in T.
      destruct r; [|destruct nw|]; injection E as <- <-; cbn; auto. }
    destruct Q as [-> ->]. split; right; (split; [intros id []|right; split; [discriminate|reflexivity]]).
  - destruct (unblock w s) as [s1|] eqn:E; [|discriminate]. injection H as <- <-.
    assert (Q : x_flags s1 = x_flags s /\ m_flags s1 = m_flags s).
    { unfold x_flags, m_flags. unfold unblock in E. destruct (s_blocked s) as [[[c f] rm]|]; [|discriminate].
      destruct (mpsc_try_send c f (s_chans s)) as [chans r] eqn:T. apply try_send_flags in T.
      destruct w, r; try discriminate; injection E as <-; cbn; auto. }
    destruct Q as [-> ->]. split; right; (split; [intros id []|right; split; [discriminate|reflexivity]]).
  - destruct (x_alive id s) eqn:A; [|discriminate]. destruct (recv_exclusive id s) as [s1 r] eqn:E. injection H as <- <-.
    assert (Q : x_flags s1 = x_flags s /\ m_flags s1 = m_flags s).
    { unfold x_flags, m_flags. unfold recv_exclusive in E. destruct (nth_error (s_chans s) id) as [ch|] eqn:N; [|injection E as <- <-; auto].
      destruct (m_queue ch) as [|f q]; [destruct (connected _ _); injection E as <- <-; auto|]. injection E as <- <-. cbn [with_exclusive s_chans s_mrxs].
      rewrite set_nth_map. cbn [m_rx]. rewrite set_nth_id by now rewrite nth_error_map, N. auto. }
    destruct Q as [-> ->]. split; right; (split; [intros i []|right; split; [discriminate|reflexivity]]).
  - destruct (m_alive id s) eqn:A; [|discriminate]. destruct (recv_multi id s) as [s1 r] eqn:E. injection H as <- <-.
    assert (Q : x_flags s1 = x_flags s /\ m_flags s1 = m_flags s).
    { unfold x_flags, m_flags. unfold recv_multi in E. destruct (nth_error (s_mrxs s) id) as [rx|] eqn:N; [|injection E as <- <-; auto].
      assert (W : forall n, map r_alive (set_nth id (MkMrx (r_chan rx) n (r_alive rx)) (s_mrxs s)) = map r_alive (s_mrxs s)).
      { intros n. rewrite set_nth_map. cbn [r_alive]. apply set_nth_id. now rewrite nth_error_map, N. }
      cbv zeta in E. destruct (nth_error (s_bcasts s) (r_chan rx)) as [b|]; [|injection E as <- <-; auto].
      destruct (_ <? _); [injection E as <- <-; cbn [s_chans s_mrxs]; rewrite W; auto|].
      destruct (nth_error (b_log b) _); [injection E as <- <-; cbn [s_chans s_mrxs]; rewrite W; auto|].
      destruct (connected _ _); injection E as <- <-; auto. }
    destruct Q as [-> ->]. split; right; (split; [intros i []|right; split; [discriminate|reflexivity]]).
  - destruct (x_alive id s) eqn:A; [|discriminate]. injection H as <- <-.
    split; right; (split; [intros i []|]).
    + left. exists id. split; [reflexivity|]. apply x_alive_flags in A. split; [exact A|].
      unfold x_flags in *. unfold drop_exclusive. rewrite nth_error_map in A. destruct (nth_error (s_chans s) id) as [ch|]; [|discriminate].
      cbn [with_exclusive s_chans]. now rewrite set_nth_map.
    + right. split; [discriminate|]. unfold m_flags, drop_exclusive. destruct (nth_error (s_chans s) id); reflexivity.
  - destruct (m_alive id s) eqn:A; [|discriminate]. injection H as <- <-.
    split; right; (split; [intros i []|]).
    + right. split; [discriminate|]. unfold x_flags, drop_multi. destruct (nth_error (s_mrxs s) id); reflexivity.
    + left. exists id. split; [reflexivity|]. apply m_alive_flags in A. split; [exact A|].
      unfold m_flags in *. unfold drop_multi. rewrite nth_error_map in A. destruct (nth_error (s_mrxs s) id) as [ch|]; [|discriminate].
      cbn [s_mrxs]. now rewrite set_nth_map.
  - injection H as <- <-. split; right; (split; [intros i []|right; split; [discriminate|reflexivity]]).
Qed.

(** One list of flags through a history. *)
Lemma flags_history (opens : SubOp * SubOut -> nat -> Prop) (drop : nat -> SubOp) (fl : Subs -> list bool) nw :
  (forall e i j, opens e i -> opens e j -> i = j) -> (forall i j, drop i = drop j -> i = j) ->
  (forall o s s' out, sub_step nw o s = Some (s', out) ->
    (opens (o, out) (length (fl s)) /\ fl s' = fl s ++ [true]) \/
    ((forall id, ~ opens (o, out) id) /\
     ((exists id, o = drop id /\ nth_error (fl s) id = Some true /\ fl s' = set_nth id false (fl s)) \/
      (forall id, o <> drop id) /\ fl s' = fl s))) ->
  (forall i out id, ~ opens (drop i, out) id) ->
  forall ops s s' outs id, sub_run nw ops s = Some (s', outs) ->
    ((exists e, In e (combine ops outs) /\ opens e id) -> length (fl s) <= id) /\
    (nth_error (fl s') id = Some true <->
     (nth_error (fl s) id = Some true \/ exists e, In e (combine ops outs) /\ opens e id) /\ ~ In (drop id) ops).
Proof.
  intros Ou Du St Od ops. induction ops as [|o ops IH]; intros s s' outs id H; cbn [sub_run] in H.
  - injection H as <- <-. cbn [combine In]. split; [intros (e & [] & _)|]. split; [auto|]. intros [[A|(e & [] & _)] _]. exact A.
  - destruct (sub_step nw o s) as [[s1 e]|] eqn:E1; [|discriminate]. destruct (sub_run nw ops s1) as [[s2 es]|] eqn:E2; [|discriminate].
    injection H as <- <-. destruct (IH _ _ _ id E2) as [L R]. cbn [combine In]. destruct (St _ _ _ _ E1) as [[O F]|[NO [(i & -> & Ni & F)|[ND F]]]].
    + assert (Ndrop : forall i, o <> drop i) by (intros i ->; exact (Od _ _ _ O)).
      rewrite F, app_length in L. cbn [length] in L. split.
      { intros (x & [<-|I] & X); [rewrite (Ou _ _ _ O X); lia|]. specialize (L (ex_intro _ x (conj I X))). lia. }
      rewrite R, F. destruct (Nat.lt_trichotomy id (length (fl s))) as [Hl|[->|Hl]].
      * rewrite nth_error_app1 by exact Hl. split.
        -- intros [[A|(x & I & X)] N]; (split; [|intros [B|B]; [exact (Ndrop _ B)|exact (N B)]]); [now left|]. right. eauto.
        -- intros [[A|(x & [<-|I] & X)] N]; (split; [|intros B; apply N; now right]); [now left| |right; eauto].
           rewrite (Ou _ _ _ O X) in Hl. lia.
      * rewrite nth_error_app2 by lia. rewrite Nat.sub_diag. cbn [nth_error]. split.
        -- intros [_ N]. split; [right; eauto|]. intros [B|B]; [exact (Ndrop _ B)|exact (N B)].
        -- intros [_ N]. split; [now left|]. intros B. apply N. now right.
      * assert (N1 : nth_error (fl s ++ [true]) id = None) by (apply nth_error_None; rewrite app_length; cbn [length]; lia).
        assert (N2 : nth_error (fl s) id = None) by (apply nth_error_None; lia). rewrite N1, N2. split.
        -- intros [[A|(x & I & X)] N]; [discriminate|]. split; [right; eauto|]. intros [B|B]; [exact (Ndrop _ B)|exact (N B)].
        -- intros [[A|(x & [<-|I] & X)] N]; [discriminate| |]; (split; [|intros B; apply N; now right]); [|right; eauto].
           rewrite (Ou _ _ _ O X) in Hl. lia.
    + assert (Li : i < length (fl s)) by (apply nth_error_Some; congruence).
      rewrite F, set_nth_length in L. split.
      { intros (x & [<-|I] & X); [now apply NO in X|]. exact (L (ex_intro _ x (conj I X))). }
      rewrite R, F. destruct (Nat.eq_dec i id) as [->|Ne].
      * rewrite set_nth_same by exact Li. split.
        -- intros [[A|(x & I & X)] N]; [discriminate|]. specialize (L (ex_intro _ x (conj I X))). lia.
        -- intros [_ N]. exfalso. apply N. now left.
      * rewrite set_nth_other by exact Ne. split.
        -- intros [A N]. split; [destruct A as [A|(x & I & X)]; [now left|right; eauto]|]. intros [B|B]; [now apply Du in B|exact (N B)].
        -- intros [A N]. split; [destruct A as [A|(x & [<-|I] & X)]; [now left|now apply NO in X|right; eauto]|]. intros B. apply N. now right.
    + rewrite F in L. split.
      { intros (x & [<-|I] & X); [now apply NO in X|]. exact (L (ex_intro _ x (conj I X))). }
      rewrite R, F. split.
      * intros [A N]. split; [destruct A as [A|(x & I & X)]; [now left|right; eauto]|]. intros [B|B]; [now apply ND in B|exact (N B)].
      * intros [A N]. split; [destruct A as [A|(x & [<-|I] & X)]; [now left|now apply NO in X|right; eauto]|]. intros B. apply N. now right.
Qed.

(** In every history: a subscription counts as having a receiver from the call that
    returned it to the moment it is dropped, and at no other time. *)
Theorem C40_receiving_iff_partial :
  forall no_wait ops s outs id,
    sub_run no_wait ops subs_new = Some (s, outs) ->
    (x_alive id s = true <-> (exists k, obtained (combine ops outs) k id) /\ ~ In (DropX id) ops) /\
    (m_alive id s = true <-> (exists k, obtained_multi (combine ops outs) k id) /\ ~ In (DropM id) ops).
Proof.
  intros nw ops s outs id H. split.
  - assert (G := proj2 (flags_history opens_x DropX x_flags nw
      ltac:(intros [[] []] i j; cbn; try tauto; destruct r; try tauto; congruence) ltac:(congruence)
      ltac:(intros; now apply (flags_step nw)) ltac:(intros i [] j; cbn; tauto) _ _ _ _ id H)).
    rewrite x_alive_flags, G. split; intros [A N]; (split; [|exact N]).
    + destruct A as [A|(e & I & X)]; [destruct id; discriminate|].
      destruct e as [[k d|k d| | | | | | | | ] [[i| | | ]| | | | ]]; try (now destruct X); cbn in X; subst i; exists k, d; auto.
    + right. destruct A as (k & d & [I|I]); eexists; (split; [exact I|reflexivity]).
  - assert (G := proj2 (flags_history opens_m DropM m_flags nw
      ltac:(intros [[] []] i j; cbn; try tauto; destruct r; try tauto; congruence) ltac:(congruence)
      ltac:(intros; now apply (flags_step nw)) ltac:(intros i [] j; cbn; tauto) _ _ _ _ id H)).
    rewrite m_alive_flags, G. split; intros [A N]; (split; [|exact N]).
    + destruct A as [A|(e & I & X)]; [destruct id; discriminate|].
      destruct e as [[ | |k d| | | | | | | ] [[i| | | ]| | | | ]]; try (now destruct X); cbn in X; subst i; exists k, d; auto.
    + right. destruct A as (k & d & I); eexists; (split; [exact I|reflexivity]).
Qed.
Print Assumptions C40_receiving_iff_partial.

(** A broadcast subscriber is dropped and another stays: the channel stays; then the
    other is dropped, and the next message removes the channel. *)
Example C40_receiving_ex :
  let before := [SubscribeMulti ka 4; SubscribeMulti ka 4; DropM 0; Deliver (short_frame 1%N [])] in
  let left ops := match sub_run true ops subs_new with Some (s, _) => (m_alive 0 s, m_alive 1 s, length (broadcast_list s)) | None => (true, true, 9) end in
  left before = (false, true, 1) /\ left (before ++ [DropM 1; Deliver (short_frame 1%N [])]) = (false, false, 0).
Proof. vm_compute. auto. Qed.
