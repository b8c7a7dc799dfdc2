(** Lemmas for LiveThm.v: the steps of the program end, and where an unanswered request
    can be. *)
From Coq Require Import NArith List Bool Arith Lia Permutation Wellfounded.
From Verif Require Import KeyModel HeaderModel KeySpec HeaderSpec KeyProof HeaderProof MinKeyModel MinKeySpec MinKeyProof
  SchemaModel MacroModel PostcardModel DispatchModel DispatchSpec DispatchProof SubModel SubSpec SubProof
  ClientModel ClientSpec ClientProof ClientHist ClientMore ClientOut ClientThm ClientThm3.
From Verif Require Import DispatchModel SystemModel SystemSpec SystemProof LiveSpec.
Import ListNotations.

(** * A measure *)
Section Measure.
  Context {Val : Type}.
  Fixpoint hdepth {R} (p : HProg Val R) : nat :=
    match p with
    | HRet _ => 0
    | HSend _ _ _ k => S (Nat.max (hdepth (k TxOk)) (Nat.max (hdepth (k (TxErr TxConnectionClosed)))
                         (Nat.max (hdepth (k (TxErr TxOther))) (hdepth (k (TxErr TxTimeout))))))
    end.
  Lemma hdepth_lt R key seq p (k : TxRes -> HProg Val R) r : hdepth (k r) < hdepth (HSend key seq p k).
  Proof. cbn [hdepth]. destruct r as [|[]]; lia. Qed.
End Measure.

Definition weight (p : Pc) : nat :=
  match p with PStart => 8 | PKind _ => 7 | POkReg _ => 6 | PReg _ => 5 | PSent _ => 1 | PEnded => 0 end.
Definition sum {A} (g : A -> nat) (l : list A) : nat := fold_right (fun x n => g x + n) 0 l.
Lemma sum_app {A} (g : A -> nat) l1 l2 : sum g (l1 ++ l2) = sum g l1 + sum g l2.
Proof. unfold sum. induction l1; cbn; lia. Qed.
Lemma sum_set {A} (g : A -> nat) l i x y : nth_error l i = Some y -> sum g (set_nth i x l) + g y = sum g l + g x.
Proof.
  revert i. induction l as [|z l IH]; intros [|i] H; try discriminate.
  - injection H as ->. cbn. lia.
  - rewrite FlowBase.set_nth_S. cbn. specialize (IH _ H). unfold sum in IH. lia.
Qed.

Definition some {A} (o : option A) : nat := match o with Some _ => 1 | None => 0 end.

(** What remains to be done on the client's way out, in the tasks, on the way in. *)
Section M.
  Context {Val Ctx SCtx : Type}.
  Notation Sys := (Sys Val Ctx SCtx).
  Definition m_out (c : Client) : nat :=
    sum (fun q => weight (rq_pc q)) (c_reqs c) + 4 * sum some (c_pubs c) + 3 * length (c_out c) + 2 * some (c_sending c).
  Definition m_in (c : Client) : nat := some (c_offer c) + some (s_blocked (c_subs c)).
  Definition m1 (s : Sys) : nat := m_out (y_client _ _ _ s) + length (y_up _ _ _ s).
  Definition m2 (s : Sys) : nat := sum hdepth (y_tasks _ _ _ s).
  Definition m3 (s : Sys) : nat := 2 * length (y_down _ _ _ s) + m_in (y_client _ _ _ s).
  Definition less (a b : Sys) : Prop :=
    m1 a < m1 b \/ (m1 a = m1 b /\ (m2 a < m2 b \/ (m2 a = m2 b /\ m3 a < m3 b))).
  Lemma less_wf : well_founded less.
  Proof.
    assert (G : forall n1 n2 n3 s, m1 s < n1 \/ (m1 s = n1 /\ (m2 s < n2 \/ (m2 s = n2 /\ m3 s < n3))) -> Acc less s).
    { induction n1 as [n1 I1] using lt_wf_ind. induction n2 as [n2 I2] using lt_wf_ind. induction n3 as [|n3 I3]; intros s H.
      - destruct H as [H|(H1 & [H2|(_ & H3)])]; [| |lia].
        + eapply (I1 _ H (S (m2 s)) 0). right. split; auto.
        + eapply (I2 _ H2 (S (m3 s))). right. split; auto.
      - destruct H as [H|(H1 & [H2|(H2 & H3)])].
        + eapply (I1 _ H (S (m2 s)) 0). right. split; auto.
        + eapply (I2 _ H2 (S (m3 s))). right. split; auto.
        + constructor. intros s' L. apply I3. unfold less in L. lia. }
    intros s. apply (G (S (m1 s)) 0 0). auto.
  Qed.
End M.

Ltac inner H :=
  repeat match type of H with
  | context [match ?x with _ => _ end] =>
    lazymatch x with context [match _ with _ => _ end] => fail | _ => destruct x eqn:?; try discriminate end
  end.

(** Delivering blocks at most once; the end of the wait frees the worker. *)
Lemma sub_step_blocked nw o s s' out : sub_step nw o s = Some (s', out) ->
  match o with
  | Deliver _ => s_blocked s = None /\ (out = ODelivery NotHandled -> s_blocked s' = None)
  | Unblock _ => s_blocked s <> None /\ s_blocked s' = None
  | _ => True
  end.
Proof.
  intros H. pose proof (sub_step_facts _ _ _ _ _ H) as (_ & _ & F & _). destruct o; auto; cbn [sub_step] in H.
  - unfold blocked in H. destruct (s_blocked s) eqn:B; [discriminate|]. auto.
  - unfold unblock in H. destruct (s_blocked s) as [[[c f] rm]|]; [|discriminate]. split; [discriminate|].
    inner H; inversion H; reflexivity.
Qed.

Lemma adopt_fields kk f c : c_reqs (adopt kk f c) = c_reqs c /\ c_pubs (adopt kk f c) = c_pubs c /\ c_out (adopt kk f c) = c_out c /\
  c_sending (adopt kk f c) = c_sending c /\ c_offer (adopt kk f c) = c_offer c /\ c_subs (adopt kk f c) = c_subs c /\ c_stopped (adopt kk f c) = c_stopped c.
Proof. unfold adopt. destruct (negb _); auto 10. Qed.

Definition own_client (l : Label) : bool := own_step (SClient l).

Lemma own_client_less cfg l c c' e : own_client l = true -> step cfg l c = Some (c', e) ->
  m_out c' + length (wire_of e) < m_out c \/ (m_out c' + length (wire_of e) = m_out c /\ m_in c' < m_in c).
Proof.
  intros Ho H. unfold m_out, m_in.
  assert (Sr : forall r q q', nth_error (c_reqs c) r = Some q ->
     sum (fun q => weight (rq_pc q)) (set_nth r q' (c_reqs c)) + weight (rq_pc q) = sum (fun q => weight (rq_pc q)) (c_reqs c) + weight (rq_pc q')).
  { intros r q q' Hq. apply (sum_set (fun q => weight (rq_pc q))); auto. }
  assert (Sp : forall i f, nth_error (c_pubs c) i = Some (Some f) -> sum some (set_nth i None (c_pubs c)) + 1 = sum some (c_pubs c)).
  { intros i f Hi. pose proof (sum_set (@some RpcFrame) (c_pubs c) i None _ Hi). cbn in *. lia. }
  destruct l; try discriminate Ho; cbn [step] in H.
  - destruct (nth_error (c_reqs c) r) as [q|] eqn:Hq; [|discriminate]. destruct (rq_pc q) eqn:Hp; try discriminate.
    injection H as <- <-. cbn [set_req c_reqs c_pubs c_out c_sending c_offer c_subs wire_of flat_map app length].
    left. pose proof (Sr _ _ (MkReq (shrink_frame (c_kkind c) (rq_frame q)) (rq_resp q) (PKind (c_kkind c)) (rq_ok q) (rq_err q)) Hq) as E. rewrite Hp in E. cbn [rq_pc weight] in E. lia.
  - destruct (nth_error (c_reqs c) r) as [q|] eqn:Hq; [|discriminate]. destruct (rq_pc q) eqn:Hp; try discriminate.
    destruct (is_duplicate _ _); injection H as <- <-; cbn [set_waiters end_req set_req c_reqs c_pubs c_out c_sending c_offer c_subs wire_of flat_map app length];
      unfold with_pc; left; match goal with |- context [set_nth r ?q' _] => pose proof (Sr _ _ q' Hq) as E end; rewrite Hp in E; cbn [rq_pc weight with_pc] in E; lia.
  - destruct (nth_error (c_reqs c) r) as [q|] eqn:Hq; [|discriminate]. destruct (rq_pc q) eqn:Hp; try discriminate.
    destruct (is_duplicate _ _); injection H as <- <-; cbn [set_waiters end_req set_req c_reqs c_pubs c_out c_sending c_offer c_subs wire_of flat_map app length];
      unfold with_pc; left; match goal with |- context [set_nth r ?q' _] => pose proof (Sr _ _ q' Hq) as E end; rewrite Hp in E; cbn [rq_pc weight with_pc] in E; lia.
  - destruct (nth_error (c_reqs c) r) as [q|] eqn:Hq; [|discriminate]. destruct (rq_pc q) eqn:Hp; try discriminate.
    destruct (negb _); [|destruct (_ <? _); [|discriminate]]; injection H as <- <-; cbn [set_out set_waiters end_req set_req c_reqs c_pubs c_out c_sending c_offer c_subs wire_of flat_map app length];
      unfold with_pc; left; match goal with |- context [set_nth r ?q' _] => pose proof (Sr _ _ q' Hq) as E end; rewrite Hp in E; cbn [rq_pc weight with_pc] in E; rewrite ?app_length; cbn [length]; lia.
  - destruct (nth_error (c_reqs c) r) as [q|] eqn:Hq; [|discriminate]. destruct (rq_pc q) eqn:Hp; try discriminate.
    destruct (rq_ok q) as [f|]; [|discriminate]. injection H as <- <-. destruct (adopt_fields kk f (end_req r q c)) as (-> & -> & -> & -> & -> & -> & _).
    left. cbn [set_out set_waiters end_req set_req c_reqs c_pubs c_out c_sending c_offer c_subs wire_of flat_map app length].
    match goal with |- context [set_nth r ?q' _] => pose proof (Sr _ _ q' Hq) as E end; rewrite Hp in E; cbn [rq_pc weight with_pc] in E. lia.
  - destruct (nth_error (c_reqs c) r) as [q|] eqn:Hq; [|discriminate]. destruct (rq_pc q) eqn:Hp; try discriminate.
    destruct (rq_err q) as [f|]; [|discriminate]. injection H as <- <-. destruct (adopt_fields kk f (end_req r q c)) as (-> & -> & -> & -> & -> & -> & _).
    left. cbn [set_out set_waiters end_req set_req c_reqs c_pubs c_out c_sending c_offer c_subs wire_of flat_map app length].
    match goal with |- context [set_nth r ?q' _] => pose proof (Sr _ _ q' Hq) as E end; rewrite Hp in E; cbn [rq_pc weight with_pc] in E. lia.
  - destruct (nth_error (c_reqs c) r) as [q|] eqn:Hq; [|discriminate]. destruct (rq_pc q) eqn:Hp; try discriminate.
    destruct (c_stopped c); [|discriminate]. injection H as <- <-.
    left. cbn [set_out set_waiters end_req set_req c_reqs c_pubs c_out c_sending c_offer c_subs wire_of flat_map app length].
    match goal with |- context [set_nth r ?q' _] => pose proof (Sr _ _ q' Hq) as E end; rewrite Hp in E; cbn [rq_pc weight with_pc] in E. lia.
  - destruct (nth_error (c_pubs c) i) as [[f|]|] eqn:Hi; try discriminate. pose proof (Sp _ _ Hi) as E.
    destruct (negb _); [|destruct (_ <? _); [|discriminate]]; injection H as <- <-; cbn [set_out set_pubs c_reqs c_pubs c_out c_sending wire_of flat_map length app];
      left; rewrite ?app_length; cbn [length]; lia.
  - destruct (nth_error (c_pubs c) i) as [[f|]|] eqn:Hi; try discriminate. pose proof (Sp _ _ Hi) as E.
    destruct (c_stopped c); [|discriminate]. injection H as <- <-. cbn [set_pubs c_reqs c_pubs c_out c_sending wire_of flat_map length app]. left. lia.
  - destruct (c_sending c); [discriminate|]. destruct (c_out c) as [|f q]; [discriminate|]. destruct (c_out_alive c); [|discriminate].
    injection H as <- <-. cbn -[sum]. left. lia.
  - destruct (c_sending c); [|discriminate]. injection H as <- <-. cbn -[sum]. left. lia.
  - destruct (c_offer c) as [f|]; [|discriminate]. right. destruct choice as [i|].
    + destruct (nth_error (c_waiters c) i) as [w|]; [|discriminate]. destruct (header_eqb _ _); [|discriminate].
      destruct (nth_error (c_reqs c) (w_req w)) as [q|] eqn:Hq; [|discriminate]. injection H as <- <-.
      cbn [set_in set_waiters set_req c_reqs c_pubs c_out c_sending c_offer c_subs wire_of flat_map app length].
      match goal with |- context [set_nth _ ?q' _] => pose proof (Sr _ _ q' Hq) as E end. destruct (w_err w); cbn [rq_pc weight some] in *; lia.
    + destruct (existsb _ _); [discriminate|]. injection H as <- <-. cbn -[sum]. lia.
  - destruct (sub_step _ _ _) as [[s o]|] eqn:E; [|discriminate]. apply sub_step_blocked in E as [E1 E2]. destruct (c_in_alive c); [|discriminate].
    injection H as <- <-. right. cbn -[sum]. rewrite E2. destruct (s_blocked (c_subs c)); [cbn; lia|congruence].
Qed.

Lemma recv_less cfg b c c' e : step cfg (LRecv b) c = Some (c', e) -> m_out c' = m_out c /\ m_in c' <= m_in c + 1.
Proof.
  intros H. unfold m_out, m_in. cbn [step] in H. destruct (c_offer c) eqn:O; [discriminate|]. destruct (_ || _)%bool; [discriminate|].
  destruct (take_from_slice b) as [[[h bd]|]|]; try discriminate.
  - destruct (sub_step _ _ _) as [[s o]|] eqn:E; [|discriminate]. apply sub_step_blocked in E as [E1 E2].
    destruct o as [|[]| | |]; injection H as <- <-; cbn -[sum]; rewrite ?E2 by reflexivity; split; auto; try (destruct (s_blocked s)); cbn; lia.
  - injection H as <- <-. rewrite O. cbn -[sum]. lia.
Qed.

(** * Keys *)
Lemma shrunk_match k ka kb : varkey_eqb (shrink_to (VKey8 k) ka) (shrink_to (VKey8 k) kb) = true.
Proof.
  apply varkey_eqb_spec. rewrite !vlen_shrunk. unfold agree_at.
  rewrite !shrink_bytes, !vlen8, (Nat.min_l (klen ka) 8), (Nat.min_l (klen kb) 8) by apply klen_le_8.
  assert (G : forall k1, Nat.min (klen ka) (klen kb) = klen k1 -> klen k1 <= klen ka /\ klen k1 <= klen kb ->
    compact (Nat.min (klen ka) (klen kb)) (compact (klen ka) (varkey_bytes (VKey8 k))) =
    compact (Nat.min (klen ka) (klen kb)) (compact (klen kb) (varkey_bytes (VKey8 k)))).
  { intros k1 -> [L1 L2]. rewrite (compact_compact (VKey8 k) k1 ka), (compact_compact (VKey8 k) k1 kb); rewrite ?vlen8; auto; apply klen_le_8. }
  destruct (Nat.le_ge_cases (klen ka) (klen kb)) as [L|L].
  - apply (G ka); [apply Nat.min_l|]; auto.
  - apply (G kb); [apply Nat.min_r|]; auto.
Qed.

Lemma topic_shrunk k k' kk : varkey_eqb (VKey8 k) (shrink_to (VKey8 k') kk) = true ->
  compact (klen kk) (k8_bytes k) = compact (klen kk) (k8_bytes k').
Proof.
  intros Hv. apply varkey_eqb_spec in Hv. rewrite vlen_shrunk, vlen8, Nat.min_r in Hv by apply klen_le_8. unfold agree_at in Hv.
  rewrite shrink_bytes, vlen8, Nat.min_l in Hv by apply klen_le_8.
  rewrite (compact_compact (VKey8 k') kk kk) in Hv; auto. rewrite vlen8. apply klen_le_8.
Qed.

(** * Subscriptions *)
Definition listed (k : Key8) (s : Subs) : Prop := In k (map fst (exclusive_list s)) \/ In k (map fst (broadcast_list s)).
Definition op_key (o : SubOp) : option Key8 :=
  match o with SubscribeExclusive k _ | SubscribeLegacy k _ | SubscribeMulti k _ => Some k | _ => None end.

Lemma replace_first_keys k id l : map fst (replace_first k id l) = map fst l.
Proof. induction l as [|e l IH]; cbn; auto. destruct (key8_eqb _ _); cbn; congruence. Qed.
Lemma retain_keys b key l x : In x (map fst (retain b key l)) -> In x (map fst l).
Proof.
  unfold retain. destruct b; auto. intros H. apply in_map_iff in H as (e & <- & H). apply filter_In in H as [H _].
  apply in_map. auto.
Qed.

Lemma filter_keys p (l : list (Key8 * nat)) x : In x (map fst (filter p l)) -> In x (map fst l).
Proof. intros H. apply in_map_iff in H as (e & <- & H). apply filter_In in H as [H _]. apply in_map. auto. Qed.

Lemma sub_step_listed nw o s s' out k : sub_step nw o s = Some (s', out) -> listed k s' -> listed k s \/ op_key o = Some k.
Proof.
  unfold listed. intros H L. destruct o; cbn [sub_step op_key] in *;
  unfold subscribe_mpsc, subscribe_multi, deliver, unblock, recv_exclusive, recv_multi, drop_exclusive, drop_multi, finish, with_exclusive in H;
  inner H; inversion H; subst; cbn [exclusive_list broadcast_list] in L;
  repeat match goal with H : (_, _) = (_, _) |- _ => injection H as <- <-; subst end; cbn [exclusive_list broadcast_list] in L;
  rewrite ?replace_first_keys, ?map_app, ?in_app_iff in L; cbn [map In fst] in L;
  try (destruct L as [L|L]; try apply retain_keys in L; try apply filter_keys in L; tauto);
  try (destruct L as [L|L]; [|tauto]; destruct L as [L|[L|[]]]; [tauto|right; congruence]);
  try (destruct L as [L|L]; [tauto|]; destruct L as [L|[L|[]]]; [tauto|right; congruence]).
  destruct L as [[]|[]].
Qed.

Lemma step_listed cfg l c c' e k : step cfg l c = Some (c', e) -> listed k (c_subs c') -> listed k (c_subs c) \/ In k (topics_subscribed [l]).
Proof.
  intros H L. destruct l; cbn [step] in H;
  try (repeat match type of H with context [match ?x with _ => _ end] => destruct x eqn:?; try discriminate end;
       injection H as <- <-; cbn in L; unfold adopt in L; try destruct (negb (kkind_eqb _ _)); cbn in L; auto; fail).
  - destruct (c_offer c); [discriminate|]. destruct (_ || _)%bool; [discriminate|]. destruct (take_from_slice bytes) as [[[h b]|]|]; try discriminate.
    + destruct (sub_step _ _ _) as [[s o]|] eqn:E; [|discriminate].
      assert (c_subs c' = s) as <- by (destruct o as [|[]| | |]; injection H as <- <-; reflexivity).
      destruct (sub_step_listed _ _ _ _ _ _ E L) as [X|X]; [auto|discriminate].
    + injection H as <- <-. auto.
  - destruct (sub_step _ _ _) as [[s o]|] eqn:E; [|discriminate]. destruct (c_in_alive c); [|discriminate]. injection H as <- <-.
    destruct (sub_step_listed _ _ _ _ _ _ E L) as [X|X]; [auto|discriminate].
  - destruct (c_in_alive c); [discriminate|]. injection H as <- <-. cbn in L. destruct L as [[]|[]].
  - destruct (user_op o); [|discriminate]. destruct (sub_step _ _ _) as [[s out]|] eqn:E; [|discriminate]. injection H as <- <-.
    destruct (sub_step_listed _ _ _ _ _ _ E L) as [X|X]; [auto|]. right. destruct o; cbn in X |- *; try discriminate; injection X as ->; auto.
Qed.

Lemma topics_app a b : topics_subscribed (a ++ b) = topics_subscribed a ++ topics_subscribed b.
Proof. apply flat_map_app. Qed.

Lemma reach_listed cfg cl c es k : run cfg cl client_new = Some (c, es) -> listed k (c_subs c) -> In k (topics_subscribed cl).
Proof.
  revert cl c es. apply (run_ind cfg (fun cl c _ => listed k (c_subs c) -> In k (topics_subscribed cl))).
  - intros [[]|[]].
  - intros ls c es l c' e Hr IH Hs L. rewrite topics_app, in_app_iff. destruct (step_listed _ _ _ _ _ _ Hs L) as [X|X]; auto.
Qed.

(** * Client steps other than receiving, as far as the way out and the offer go *)
Lemma step_ways cfg l c c' e : step cfg l c = Some (c', e) ->
  (c_stopped c = true -> c_stopped c' = true) /\
  (forall f, In f (c_out c) -> In f (c_out c') \/ c_sending c' = Some f \/ c_stopped c' = true) /\
  (forall f, c_sending c = Some f -> c_sending c' = Some f \/ In (rpc_to_bytes f) (wire_of e) \/ c_stopped c' = true) /\
  ((forall ch, l <> LWake ch) -> forall f, c_offer c = Some f -> c_offer c' = Some f \/ c_stopped c' = true) /\
  (forall b, In b (wire_of e) -> exists f, b = rpc_to_bytes f) /\
  (forall r q kk, l = LSend r -> nth_error (c_reqs c') r = Some q -> rq_pc q = PSent kk -> In (rq_frame q) (c_out c')).
Proof.
  intros H. split; [apply (step_stopped _ _ _ _ _ H)|].
  destruct l; cbn [step] in H;
  try (repeat match type of H with context [match ?x with _ => _ end] => destruct x eqn:?; try discriminate end;
       injection H as <- <-;
       try match goal with |- context [adopt ?k ?f ?c] => let X := fresh in destruct (adopt_fields k f c) as (X & ?X & ?X & ?X & ?X & ?X & ?X); rewrite ?X in * end;
       cbn; repeat split; try congruence; try tauto; eauto;
       try (intros; apply in_app_iff; auto; fail); try (intros; left; apply in_app_iff; auto; fail); try (intros f [<-|Hf]; auto; fail); try (intros b []; fail); try (intros b [<-|[]]; eauto; fail); fail).
  - destruct (nth_error (c_reqs c) r) as [q|] eqn:Hq; [|discriminate]. destruct (rq_pc q) eqn:Hp; try discriminate.
    destruct (negb _); [|destruct (_ <? _); [|discriminate]]; injection H as <- <-; cbn; repeat split; auto; try (intros b []; fail).
    + intros r0 q0 k0 [= <-] H1 H2. rewrite (set_nth_some _ _ _ _ _ Hq) in H1. injection H1 as <-. discriminate.
    + intros f Hf. left. apply in_app_iff. auto.
    + intros r0 q0 k0 [= <-] H1 H2. rewrite (set_nth_some _ _ _ _ _ Hq) in H1. injection H1 as <-. apply in_app_iff. right. left. reflexivity.
  - destruct (nth_error (c_reqs c) r) as [q|] eqn:Hq; [|discriminate]. destruct (rq_pc q) eqn:Hp; try discriminate.
    destruct (rq_ok q) as [f|]; [|discriminate]. injection H as <- <-. destruct (adopt_fields kk f (end_req r q c)) as (_ & _ & -> & -> & -> & _ & ->).
    cbn. repeat split; auto; try discriminate. intros b [].
  - destruct (nth_error (c_reqs c) r) as [q|] eqn:Hq; [|discriminate]. destruct (rq_pc q) eqn:Hp; try discriminate.
    destruct (rq_err q) as [f|]; [|discriminate]. injection H as <- <-. destruct (adopt_fields kk f (end_req r q c)) as (_ & _ & -> & -> & -> & _ & ->).
    cbn. repeat split; auto; try discriminate. intros b [].
  - destruct (c_sending c) as [f|]; [|discriminate]. injection H as <- <-. cbn. repeat split; auto; try discriminate.
    + intros g [= <-]. auto.
    + intros b [<-|[]]. eauto.
  - destruct (c_offer c) as [f|]; [|discriminate]. destruct choice as [i|].
    + destruct (nth_error (c_waiters c) i) as [w|]; [|discriminate]. destruct (header_eqb _ _); [|discriminate].
      destruct (nth_error (c_reqs c) (w_req w)) as [q|]; [|discriminate]. injection H as <- <-. cbn. repeat split; auto; try discriminate.
      * intros X. destruct (X _ eq_refl).
      * intros b [].
    + destruct (existsb _ _); [discriminate|]. injection H as <- <-. cbn. repeat split; auto; try discriminate.
      * intros X. destruct (X _ eq_refl).
      * intros b [].
Qed.

(** * The system *)
Lemma remove_other {A} i (l : list A) x y : nth_error l i = Some x -> In y l -> y = x \/ In y (remove_nth i l).
Proof. intros H Hy. apply (Permutation_in _ (remove_nth_perm _ _ _ H)) in Hy. destruct Hy; auto. Qed.
Lemma set_nth_elsewhere {A} i (l : list A) z x y : nth_error l i = Some x -> In y l -> y = x \/ In y (set_nth i z l).
Proof.
  intros H Hy. apply In_nth_error in Hy as (j & Hj). destruct (Nat.eq_dec i j) as [->|Hne]; [left; congruence|].
  right. apply (nth_error_In _ j). rewrite set_nth_other; auto.
Qed.
Lemma bytes_dec (a b : list N) : {a = b} + {a <> b}.
Proof. apply (list_eq_dec N.eq_dec). Qed.

Section S.
  Context {Val Ctx SCtx : Type}.
  Variable std : StdKeys.
  Variable net : Trace Val SCtx -> VarHeader -> Payload Val -> TxRes.
  Variable can_spawn : Trace Val SCtx -> nat -> bool.
  Variable kkind : VarKeyKind.
  Variable spawn_ctxt : Ctx -> Ctx * SCtx.
  Variable enc : Payload Val -> list N.
  Variable task : nat -> SCtx -> VarHeader -> Val -> HProg Val unit.
  Variable bg : list (HProg Val unit).
  Variable cfg : Config.
  Variable eps : EndpointMap.
  Variable tin tout : TopicMap.
  Variable ea : list (EpArm Val Ctx).
  Variable ta : list (TpArm Val Ctx).
  Variable d : Dispatcher Val Ctx.

  Notation handle := (handle Val Ctx SCtx std net can_spawn kkind spawn_ctxt).
  Notation Tr := (Trace Val SCtx).
  Notation sys_step := (sys_step Val Ctx SCtx std net can_spawn kkind spawn_ctxt d enc task cfg).
  Notation sys_run := (sys_run Val Ctx SCtx std net can_spawn kkind spawn_ctxt d enc task cfg).
  Notation Sys := (Sys Val Ctx SCtx).
  Notation dk := (d_kind _ _ d).

  Definition by_itself (s' s : Sys) : Prop := exists l, own_step l = true /\ sys_step l s = Some s'.

  Lemma step_client l s s' : sys_step (SClient l) s = Some s' -> exists e, (forall b, l <> LRecv b) /\
    step cfg l (y_client _ _ _ s) = Some (y_client _ _ _ s', e) /\
    s' = MkSys _ _ _ (y_client _ _ _ s') (y_up _ _ _ s ++ wire_of e) (y_down _ _ _ s) (y_ctx _ _ _ s) (y_trace _ _ _ s) (y_tasks _ _ _ s) (y_serving _ _ _ s).
  Proof.
    intros H. cbn [SystemModel.sys_step] in H.
    assert (X : (forall b, l <> LRecv b) /\ match step cfg l (y_client _ _ _ s) with
      | Some (c, e) => Some (MkSys _ _ _ c (y_up _ _ _ s ++ wire_of e) (y_down _ _ _ s) (y_ctx _ _ _ s) (y_trace _ _ _ s) (y_tasks _ _ _ s) (y_serving _ _ _ s))
      | None => None end = Some s').
    { destruct l; try discriminate; (split; [discriminate|exact H]). }
    destruct X as [X1 X2]. destruct (step cfg l _) as [[c e]|]; [|discriminate]. injection X2 as <-. exists e. repeat split; auto.
  Qed.

  Lemma own_less l s s' : own_step l = true -> sys_step l s = Some s' -> less s' s.
  Proof.
    intros Ho H. unfold less, m1, m2, m3. destruct l; try discriminate Ho.
    - destruct (step_client _ _ _ H) as (e & _ & Hs & E). rewrite E. cbn [y_client y_up y_down y_tasks]. rewrite app_length.
      destruct (own_client_less _ _ _ _ _ Ho Hs) as [L|[L1 L2]]; [lia|]. right. split; [lia|]. right. split; auto. lia.
    - cbn [SystemModel.sys_step] in H. destruct (nth_error (y_down _ _ _ s) i) as [b|] eqn:Hb; [|discriminate].
      destruct (step cfg (LRecv b) _) as [[c e]|] eqn:Hs; [|discriminate]. injection H as <-. cbn [y_client y_up y_down y_tasks].
      destruct (recv_less _ _ _ _ _ Hs) as [-> L]. right. split; auto. right. split; auto.
      pose proof (Permutation_length (remove_nth_perm _ _ _ Hb)) as P. cbn in P. lia.
    - cbn [SystemModel.sys_step] in H. destruct (y_serving _ _ _ s); [|discriminate].
      destruct (nth_error (y_up _ _ _ s) i) as [b|] eqn:Hb; [|discriminate].
      pose proof (Permutation_length (remove_nth_perm _ _ _ Hb)) as P. cbn in P.
      destruct (take_from_slice b) as [[[h bd]|]|]; try discriminate.
      + destruct (DispatchModel.handle _ _ _ _ _ _ _ _ _ _ _ _ _) as [[ctx res] tr]. injection H as <-. cbn [y_client y_up]. left. lia.
      + injection H as <-. cbn [y_client y_up]. left. lia.
    - cbn [SystemModel.sys_step] in H. destruct (nth_error (y_tasks _ _ _ s) i) as [[|key seq p k]|] eqn:Ht; try discriminate.
      destruct (send_keyed _ _ _ _ _ _ _ _ _) as [r tr]. injection H as <-. cbn [y_client y_up y_tasks]. right. split; auto. left.
      pose proof (sum_set (@hdepth Val unit) _ _ (k r) _ Ht) as E. pose proof (hdepth_lt _ key seq p k r). lia.
  Qed.

  Lemma own_acc s : Acc by_itself s.
  Proof.
    induction s as [s IH] using (well_founded_induction less_wf). constructor. intros s' (l & Ho & H). apply IH. eapply own_less; eauto.
  Qed.

  Hypothesis Hdisp : dispatcher_for eps tin tout ea ta d.
  Hypothesis Hdev : device_ok std eps tout ea.
  Hypothesis Hkk : klen (d_kind _ _ d) <= klen kkind.

  Lemma no_topic_arm req resp kk hdr a : is_endpoint eps req resp -> klen dk <= klen kk -> hdr_key hdr = shrink_to (VKey8 req) kk -> In a ta ->
    pat_eqb (shrink_to (hdr_key hdr) dk) (const_key dk (ta_key _ _ a)) = false.
  Proof.
    intros He L Hk Ia. destruct (pat_eqb _ _) eqn:Pa; auto. exfalso.
    apply pat_match in Pa; [|rewrite Hk, vlen_shrunk; auto]. rewrite Hk, agree_shrunk in Pa by auto.
    destruct Hdisp as (_ & _ & D & _ & _ & I3).
    destruct (D dk (le_n _)) as [D5 _]. eapply (distinct_app_disj _ _ _ _ _ D5); [|apply I3, in_map; exact Ia|exact Pa].
    apply (endpoint_in _ _ _ He).
  Qed.

  (** Every dispatch of a frame for an endpoint answers, or starts a task that will. *)
  Lemma handle_answers req resp kk hdr body ctx (tr : Tr) ctx' res tr' :
    is_endpoint eps req resp -> hdr_key hdr = shrink_to (VKey8 req) kk ->
    handle d ctx hdr body tr = (ctx', res, tr') ->
    exists new, tr' = tr ++ new /\
      ((exists w key p r, In (EvSend w (out_header kkind key (hdr_seq hdr)) p r) new /\ (key = resp \/ key = error_key std)) \/
       (exists a sc v, In a ea /\ ea_resp _ _ a = resp /\ ea_flavor _ _ a = Spawn /\ In (EvSpawn (ea_name _ _ a) sc hdr v true) new)).
  Proof.
    intros He Hk H. destruct Hdev as (D1 & D2 & D3 & D4).
    destruct Hdisp as (A1 & A2 & _).
    assert (Hin : In req (map ep_req (em_endpoints eps) ++ map snd (tm_topics tin))).
    { apply in_app_iff. left. apply (endpoint_in _ _ _ He). }
    unfold DispatchModel.handle in H. rewrite keyb_of_spec, Hk, vlen_shrunk in H. destruct (klen dk <=? klen kk) eqn:L'; try rewrite <- Hk in H.
    2: { unfold send_error, send_keyed, tx_send in H. injection H as <- <- <-. eexists. split; [reflexivity|]. left.
         eexists _, (error_key std), _, _. split; [left; reflexivity|auto]. }
    apply Nat.leb_le in L' as L.
    destruct (pat_eqb _ (const_key _ (ping_req std))) eqn:P1.
    { eapply pat_in in P1; eauto; [|apply in_app_iff; left; apply (endpoint_in _ _ _ D1)]. subst req.
      assert (resp = ping_resp std) as -> by (eapply endpoint_unique; eauto).
      destruct (from_bytes_u32 body) eqn:Fb; unfold send_error, send_keyed, tx_send in H; injection H as <- <- <-;
        (eexists; split; [reflexivity|]; left; eexists _, _, _, _; split; [left; reflexivity|auto]). }
    destruct (pat_eqb _ (const_key _ (schemas_req std))) eqn:P2.
    { eapply pat_in in P2; eauto; [|apply in_app_iff; left; apply (endpoint_in _ _ _ D2)]. subst req.
      assert (resp = schemas_resp std) as -> by (eapply endpoint_unique; eauto).
      destruct (send_all_schemas_spec std net can_spawn kkind (hdr_seq hdr) (d_map _ _ d) tr) as (rs & r & Lr & Es).
      rewrite Es in H. injection H as <- <- <-. eexists. split; [reflexivity|]. left. eexists _, _, _, _. split; [|left; reflexivity].
      apply in_app_iff. right. left. reflexivity. }
    rewrite A1, A2 in H.
    destruct (match_eps_cases std net can_spawn kkind spawn_ctxt dk (shrink_to (hdr_key hdr) dk) ea ta ctx hdr body tr)
      as [(a & v & Ia & Pa & Da & M)|[(r & M)|[_ M]]]; rewrite M in H.
    - eapply pat_in in Pa; eauto; [|apply in_app_iff; left; apply (endpoint_in _ _ _ (D4 _ Ia))]. subst req.
      assert (resp = ea_resp _ _ a) as -> by (eapply endpoint_unique; eauto).
      destruct (ea_flavor _ _ a) eqn:F.
      1,2: destruct (ep_arm_runs std net can_spawn kkind spawn_ctxt a ctx hdr v tr ltac:(congruence)) as (c & rep & tr1 & new & R & E1 & _ & _ & M2);
           destruct M2 as [M2|(k & r & M2)]; rewrite M2 in H; injection H as <- <- <-; rewrite E1, <- app_assoc;
           (eexists; split; [reflexivity|]; left; eexists _, _, _, _; split; [apply in_app_iff; right; left; reflexivity|auto]).
      unfold DispatchModel.ep_arm in H. rewrite F in H. destruct (spawn_ctxt ctx) as [c2 sc].
      destruct (can_spawn tr (ea_name _ _ a)) eqn:Cs; cbn [negb] in H.
      + injection H as <- <- <-. eexists. split; [reflexivity|]. right. exists a, sc, v. repeat split; auto. left. reflexivity.
      + unfold send_error, send_keyed, tx_send in H. injection H as <- <- <-. rewrite <- app_assoc. eexists. split; [reflexivity|].
        left. eexists _, _, _, _. split; [right; left; reflexivity|auto].
    - injection H as <- <- <-. eexists. split; [reflexivity|]. left. eexists _, _, _, _. split; [left; reflexivity|auto].
    - rewrite <- (app_nil_r ta) in H. rewrite match_tps_skip in H; [|intros a Ia; apply (no_topic_arm req resp kk); auto].
      cbn [DispatchModel.match_tps] in H. unfold send_error, send_keyed, tx_send in H. injection H as <- <- <-. eexists. split; [reflexivity|].
      left. eexists _, _, _, _. split; [left; reflexivity|auto].
  Qed.

  (** ** Where an unanswered request can be *)
  Definition answers_q (q : Req) (key : Key8) (seq : VarSeq) : Prop :=
    (key = rq_resp q \/ key = error_key std) /\ seq = hdr_seq (f_hdr (rq_frame q)).
  Definition ans_hdr (q : Req) (h : VarHeader) : Prop := exists key seq, answers_q q key seq /\ h = out_header kkind key seq.

  Inductive way (lu ld : list (list N)) (s : Sys) (q : Req) : Prop :=
  | at_stopped : c_stopped (y_client _ _ _ s) = true -> way lu ld s q
  | at_queued : In (rq_frame q) (c_out (y_client _ _ _ s)) -> way lu ld s q
  | at_sending : c_sending (y_client _ _ _ s) = Some (rq_frame q) -> way lu ld s q
  | at_up : In (rpc_to_bytes (rq_frame q)) (y_up _ _ _ s) -> way lu ld s q
  | at_task i prog : nth_error (y_tasks _ _ _ s) i = Some prog -> surely_sends (answers_q q) prog -> way lu ld s q
  | at_down h b : ans_hdr q h -> In (rpc_to_bytes (MkFrame h b)) (y_down _ _ _ s) -> way lu ld s q
  | at_offer f : ans_hdr q (f_hdr f) -> c_offer (y_client _ _ _ s) = Some f -> way lu ld s q
  | at_ok f : rq_ok q = Some f -> way lu ld s q
  | at_err f : rq_err q = Some f -> way lu ld s q
  (** lost on the way *)
  | at_lost_up : In (rpc_to_bytes (rq_frame q)) lu -> way lu ld s q
  | at_lost_down h b : ans_hdr q h -> In (rpc_to_bytes (MkFrame h b)) ld -> way lu ld s q.

  Definition LInv (lu ld : list (list N)) (s : Sys) : Prop :=
    forall r q kk, nth_error (c_reqs (y_client _ _ _ s)) r = Some q -> rq_pc q = PSent kk -> way lu ld s q.

  (** What the typed use of the client guarantees about requests. *)
  Definition reqs_ok (c : Client) : Prop :=
    forall r q, nth_error (c_reqs c) r = Some q -> exists req body,
      is_endpoint eps req (rq_resp q) /\ (N.of_nat r < 4294967296)%N /\ hdr_seq (f_hdr (rq_frame q)) = Seq4 (N.of_nat r) /\
      (forall kk, rq_pc q = PSent kk -> rq_frame q = shrink_frame kk (MkFrame (MkHeader (VKey8 req) (Seq4 (N.of_nat r))) body)).

  Lemma reach_reqs_ok cl c es : run cfg cl client_new = Some (c, es) -> Forall (label_ok eps tin) cl ->
    (N.of_nat (typed cl) <= 4294967296)%N -> reqs_ok c.
  Proof.
    intros H Hlab Hc r q Hq. destruct (reach_issued _ _ _ _ H) as (_ & L & M).
    destruct (nth_error (issued 0 cl) r) as [[sent resp]|] eqn:Hi.
    2: { apply nth_error_None in Hi. assert (r < length (c_reqs c)) by (apply nth_error_Some; congruence). lia. }
    assert (Hraw : forall f k, ~ In (LRequestRaw f k) cl) by (intros f k X; rewrite Forall_forall in Hlab; exact (Hlab _ X)).
    destruct (issued_typed _ _ _ _ _ Hraw Hi) as (Lt & req & body & Hl & E).
    assert (Lr : (N.of_nat r < 4294967296)%N) by lia. rewrite N.add_0_l, N.mod_small in E by auto.
    destruct (M _ _ _ Hi Hq) as [M1 M2]. cbn [fst snd] in M1, M2.
    exists req, body. rewrite M1. rewrite Forall_forall in Hlab. split; [exact (Hlab _ Hl)|]. split; auto. split.
    - rewrite E in M2. destruct (rq_pc q); try destruct M2 as [M2|(? & M2)]; rewrite M2; reflexivity.
    - intros kk Hp. rewrite Hp in M2. rewrite M2, E. reflexivity.
  Qed.

  Hypothesis Hce : cfg_err_key cfg = error_key std.

  Lemma wake_keeps lu ld ch c c' e r q' kk (up down : list (list N)) ctx tr tasks sv :
    step cfg (LWake ch) c = Some (c', e) -> CInv cfg c -> reqs_ok c ->
    nth_error (c_reqs c') r = Some q' -> rq_pc q' = PSent kk ->
    (forall q, nth_error (c_reqs c) r = Some q -> rq_pc q = PSent kk -> way lu ld (MkSys _ _ _ c up down ctx tr tasks sv) q) ->
    way lu ld (MkSys _ _ _ c' (up ++ wire_of e) down ctx tr tasks sv) q'.
  Proof.
    intros H HI Hok Hq' Hp W.
    destruct (step_ways _ _ _ _ _ H) as (S1 & S2 & S3 & _ & _ & _). cbn [step] in H.
    destruct (c_offer c) as [f|] eqn:O; [|discriminate]. destruct ch as [i|].
    - destruct (nth_error (c_waiters c) i) as [w|] eqn:Hw; [|discriminate]. destruct (header_eqb _ _) eqn:Hh; [|discriminate].
      destruct (nth_error (c_reqs c) (w_req w)) as [q0|] eqn:Hq0; [|discriminate].
      injection H as <- <-. cbn [set_in set_waiters set_req c_reqs] in Hq'. apply set_nth_inv in Hq' as [[-> ->]|[Hne Hq']].
      { destruct (w_err w); [eapply at_err|eapply at_ok]; reflexivity. }
      destruct (W _ Hq' Hp) as [X|X|X|X|j prog X1 X2|h b X1 X2|g X1 X2|g X|g X|X|h b X1 X2]; cbn [y_client y_up y_down y_tasks] in *.
      + apply at_stopped. auto.
      + apply at_queued. exact X.
      + apply at_sending. exact X.
      + apply at_up. cbn [y_up]. apply in_app_iff. auto.
      + eapply at_task; eauto.
      + eapply at_down; eauto.
      + exfalso. rewrite O in X2. injection X2 as ->. destruct X1 as (key & seq & (_ & ->) & E). rewrite E in Hh.
        apply header_eqb_iff in Hh as [_ Hs]. cbn [out_header hdr_seq] in Hs.
        destruct (wi_from _ _ _ HI w (nth_error_In _ _ Hw)) as (q1 & k1 & K1 & _ & _ & K4). rewrite K4 in Hs.
        assert (Hs2 : hdr_seq (whdr cfg (w_err w) q1 k1) = hdr_seq (f_hdr (rq_frame q1))) by (destruct (w_err w); reflexivity).
        rewrite Hs2 in Hs. destruct (Hok _ _ K1) as (_ & _ & _ & _ & E1 & _). destruct (Hok _ _ Hq') as (_ & _ & _ & _ & E2 & _).
        rewrite E1, E2 in Hs. cbn in Hs. apply Nat2N.inj in Hs. congruence.
      + eapply at_ok; eauto.
      + eapply at_err; eauto.
      + apply at_lost_up; auto.
      + eapply at_lost_down; eauto.
    - destruct (existsb _ _) eqn:Ex; [discriminate|]. injection H as <- <-. cbn [set_in c_reqs] in Hq'.
      destruct (W _ Hq' Hp) as [X|X|X|X|j prog X1 X2|h b X1 X2|g X1 X2|g X|g X|X|h b X1 X2]; cbn [y_client y_up y_down y_tasks] in *.
      + apply at_stopped. auto.
      + apply at_queued. exact X.
      + apply at_sending. exact X.
      + apply at_up. cbn [y_up]. apply in_app_iff. auto.
      + eapply at_task; eauto.
      + eapply at_down; eauto.
      + rewrite O in X2. injection X2 as ->. destruct X1 as (key & seq & (Hkey & ->) & E).
        destruct (rq_ok q') as [g'|] eqn:So; [eapply at_ok; eauto|]. destruct (rq_err q') as [g'|] eqn:Se; [eapply at_err; eauto|]. exfalso.
        assert (Hm : forall e, slot e q' = None -> header_eqb (whdr cfg e q' kk) (f_hdr g) = false).
        { intros e Hsl. pose proof (wi_to _ _ _ HI r q' e kk Hq' ltac:(rewrite Hp; destruct e; reflexivity) Hsl) as Hin.
          destruct (header_eqb _ _) eqn:Hb; auto. assert (existsb (fun w => header_eqb (w_hdr w) (f_hdr g)) (c_waiters c) = true); [|congruence].
          apply existsb_exists. eexists. split; [exact Hin|]. exact Hb. }
        assert (Hb : exists e, header_eqb (whdr cfg e q' kk) (f_hdr g) = true).
        { destruct Hkey as [->| ->]; [exists false|exists true]; rewrite E; apply header_eqb_iff; cbn; rewrite ?Hce; split; auto; apply shrunk_match. }
        destruct Hb as ([] & Hb); rewrite Hm in Hb; auto; discriminate.
      + eapply at_ok; eauto.
      + eapply at_err; eauto.
      + apply at_lost_up; auto.
      + eapply at_lost_down; eauto.
  Qed.

  Lemma client_keeps lu ld l c c' e r q' kk (up down : list (list N)) ctx tr tasks sv :
    step cfg l c = Some (c', e) -> (forall b, l <> LRecv b) -> CInv cfg c -> reqs_ok c ->
    nth_error (c_reqs c') r = Some q' -> rq_pc q' = PSent kk ->
    (forall q, nth_error (c_reqs c) r = Some q -> rq_pc q = PSent kk -> way lu ld (MkSys _ _ _ c up down ctx tr tasks sv) q) ->
    way lu ld (MkSys _ _ _ c' (up ++ wire_of e) down ctx tr tasks sv) q'.
  Proof.
    intros H Hl HI Hok Hq' Hp W.
    assert (Cw : (exists ch, l = LWake ch) \/ forall ch, l <> LWake ch) by (destruct l; try (right; discriminate); eauto).
    destruct Cw as [(ch & ->)|Hw]; [eapply wake_keeps; eauto|].
    destruct (step_ways _ _ _ _ _ H) as (S1 & S2 & S3 & S4 & _ & S6).
    assert (Cs : (exists q, l = LSend r /\ nth_error (c_reqs c) r = Some q) \/ nth_error (c_reqs c) r = Some q').
    { pose proof (step_cstep _ _ _ _ _ H) as HC. remember (c_reqs c) as reqs eqn:E1. remember (c_reqs c') as reqs' eqn:E2.
      remember (c_waiters c) as ws eqn:E3. remember (c_waiters c') as ws' eqn:E4. remember (result_of e) as o eqn:E5.
      destruct HC as [l reqs ws|l f resp reqs ws Hn|r0 q kk0 reqs ws A B|l r0 q ee kk0 q1 reqs ws A B C|r0 q kk0 reqs ws A B|l r0 q o reqs ws A B C|i w q f reqs ws A B C].
      - auto.
      - apply nth_app_last in Hq' as [Hq'|[_ ->]]; [auto|discriminate].
      - apply set_nth_inv in Hq' as [[-> ->]|[Hne Hq']]; [discriminate|auto].
      - apply set_nth_inv in Hq' as [[-> ->]|[Hne Hq']]; [|auto]. destruct ee, B as (_ & _ & ->); discriminate.
      - apply set_nth_inv in Hq' as [[-> ->]|[Hne Hq']]; [|auto]. left. eauto.
      - apply set_nth_inv in Hq' as [[-> ->]|[Hne Hq']]; [discriminate|auto].
      - destruct (Hw _ eq_refl). }
    destruct Cs as [(q & -> & Hq)|Hq].
    { apply at_queued. eapply S6; eauto. }
    destruct (W _ Hq Hp) as [X|X|X|X|j prog X1 X2|h b X1 X2|g X1 X2|g X|g X|X|h b X1 X2]; cbn [y_client y_up y_down y_tasks] in *.
    - apply at_stopped. auto.
    - destruct (S2 _ X) as [Y|[Y|Y]]; [apply at_queued|apply at_sending|apply at_stopped]; auto.
    - destruct (S3 _ X) as [Y|[Y|Y]]; [apply at_sending|apply at_up|apply at_stopped]; auto. cbn [y_up]. apply in_app_iff. auto.
    - apply at_up. cbn [y_up]. apply in_app_iff. auto.
    - eapply at_task; eauto.
    - eapply at_down; eauto.
    - destruct (S4 Hw _ X2) as [Y|Y]; [eapply at_offer|apply at_stopped]; eauto.
    - eapply at_ok; eauto.
    - eapply at_err; eauto.
    - apply at_lost_up; auto.
    - eapply at_lost_down; eauto.
  Qed.

  Lemma frames_in (new : Tr) w h p r : In (EvSend w h p r) new -> In (rpc_to_bytes (MkFrame h (enc p))) (frames_sent _ _ enc new).
  Proof. intros H. unfold frames_sent. apply in_flat_map. eexists. split; [exact H|]. left. reflexivity. Qed.
  Lemma tasks_in (new : Tr) n sc h v : In (EvSpawn n sc h v true) new -> In (task n sc h v) (tasks_of _ _ task new).
  Proof. intros H. unfold tasks_of. apply in_flat_map. eexists. split; [exact H|]. left. reflexivity. Qed.
  Hypothesis Hans : tasks_answer std ea task.

  Lemma frame_taken h b : seq_ok (hdr_seq h) -> take_from_slice (rpc_to_bytes (MkFrame h b)) = Done (Some (h, b)).
  Proof. apply take_written_ok. Qed.

  Lemma lost_snoc s0 ls : forall s cl es l, sys_run ls s0 = Some (s, cl, es) ->
    lost_up sys_step (ls ++ [l]) s0 = lost_up sys_step ls s0 ++ loses_up l s /\
    lost_down sys_step (ls ++ [l]) s0 = lost_down sys_step ls s0 ++ loses_down l s.
  Proof.
    revert s0. induction ls as [|x ls IH]; intros s0 s cl es l H; cbn [SystemModel.sys_run app lost_up lost_down] in *.
    - injection H as <- _ _. destruct (sys_step l s0); rewrite !app_nil_r; auto.
    - destruct (sys_step x s0) as [s1|]; [|discriminate]. destruct (sys_run ls s1) as [[[s2 cl2] es2]|] eqn:E; [|discriminate].
      assert (s2 = s) as ->. { destruct (client_label _ _ _ x s0) as [y|]; [destruct (step cfg y _) as [[c e]|]; [|discriminate]|]; injection H as -> _ _; reflexivity. }
      destruct (IH _ _ _ _ l E) as [-> ->]. rewrite !app_assoc. auto.
  Qed.

  Lemma way_more lu ld lu' ld' s q : incl lu lu' -> incl ld ld' -> way lu ld s q -> way lu' ld' s q.
  Proof.
    intros I1 I2 [X|X|X|X|j prog X1 X2|h b X1 X2|g X1 X2|g X|g X|X|h b X1 X2];
      [apply at_stopped|apply at_queued|apply at_sending|apply at_up|eapply at_task|eapply at_down|eapply at_offer|eapply at_ok|eapply at_err|apply at_lost_up|eapply at_lost_down]; eauto.
  Qed.

  Lemma reach_live ctx0 ls s cl es : sys_run ls (sys_new _ _ _ bg ctx0) = Some (s, cl, es) ->
    run cfg cl client_new = Some (y_client _ _ _ s, es) /\
    (Forall (label_ok eps tin) cl -> (N.of_nat (typed cl) <= 4294967296)%N -> subscriptions_apart kkind std eps cl ->
     LInv (lost_up sys_step ls (sys_new _ _ _ bg ctx0)) (lost_down sys_step ls (sys_new _ _ _ bg ctx0)) s).
  Proof.
    revert ls s cl es. set (s0 := sys_new Val Ctx SCtx bg ctx0).
    apply (sys_ind std net can_spawn kkind spawn_ctxt enc task cfg d (fun ls s cl es => run cfg cl client_new = Some (y_client _ _ _ s, es) /\
    (Forall (label_ok eps tin) cl -> (N.of_nat (typed cl) <= 4294967296)%N -> subscriptions_apart kkind std eps cl ->
     LInv (lost_up sys_step ls s0) (lost_down sys_step ls s0) s))).
    { split; [reflexivity|]. intros _ _ _ r q kk Hr. destruct r; discriminate. }
    intros ls s cl es l s' Hr [Hrun IH] Hs.
    destruct (lost_snoc _ _ _ _ _ l Hr) as [Lu Ld].
    assert (IH' : forall x, Forall (label_ok eps tin) (cl ++ x) -> (N.of_nat (typed (cl ++ x)) <= 4294967296)%N ->
      subscriptions_apart kkind std eps (cl ++ x) -> LInv (lost_up sys_step (ls ++ [l]) s0) (lost_down sys_step (ls ++ [l]) s0) s /\ reqs_ok (y_client _ _ _ s)).
    { intros x A2 A3 A4. rewrite typed_app in A3. apply Forall_app in A2 as [A2 _].
      split; [|eapply reach_reqs_ok; eauto; lia]. intros r q kk Hq Hp. eapply way_more; [| |eapply IH; eauto; [lia|]].
      - rewrite Lu. apply incl_appl, incl_refl.
      - rewrite Ld. apply incl_appl, incl_refl.
      - intros k k' Hk. apply A4. rewrite topics_app, in_app_iff. auto. }
    assert (Lu' : incl (loses_up l s) (lost_up sys_step (ls ++ [l]) s0)) by (rewrite Lu; apply incl_appr, incl_refl).
    assert (Ld' : incl (loses_down l s) (lost_down sys_step (ls ++ [l]) s0)) by (rewrite Ld; apply incl_appr, incl_refl).
    revert IH' Lu' Ld'. generalize (lost_up sys_step (ls ++ [l]) s0) (lost_down sys_step (ls ++ [l]) s0). intros lu ld IH' Lu' Ld'. clear Lu Ld.
    clear IH. pose proof (reach_cinv _ _ _ _ Hrun) as HI.
    destruct l as [l|i|i|i|i|i|i n|]; cbn [client_label].
    - intros e He. split; [eapply run_last; eauto|]. intros A2 A3 A4. destruct (IH' _ A2 A3 A4) as [V1 Rq].
      destruct (step_client _ _ _ Hs) as (e' & Hl & Hs' & E). rewrite He in Hs'. injection Hs' as <-.
      destruct s as [c up down ctx tr tasks sv]. cbn [y_client y_up y_down y_ctx y_trace y_tasks y_serving] in *.
      rewrite E. intros r q kk Hq Hp. cbn [y_client] in Hq. eapply client_keeps; eauto.
    - cbn [SystemModel.sys_step] in Hs. destruct (nth_error (y_down _ _ _ s) i) as [b|] eqn:Hb; [|discriminate]. cbn [option_map].
      destruct (step cfg (LRecv b) _) as [[c e0]|] eqn:St; [|discriminate]. injection Hs as <-. cbn [y_client]. intros e [= <-].
      split; [eapply run_last; eauto|]. intros A2 A3 A4. destruct (IH' _ A2 A3 A4) as [V1 Rq].
      pose proof (step_cstep _ _ _ _ _ St) as HC.
      assert (Same : c_reqs c = c_reqs (y_client _ _ _ s)).
      { inversion HC; try congruence; repeat match goal with
        | H : _ \/ _ |- _ => destruct H | H : exists _, _ |- _ => destruct H | H : _ /\ _ |- _ => destruct H | H : match ?x with _ => _ end |- _ => destruct x end; try discriminate. }
      intros r q kk Hq Hp. cbn [y_client] in Hq. rewrite Same in Hq. pose proof (V1 _ _ _ Hq Hp) as W.
      destruct (step_ways _ _ _ _ _ St) as (S1 & S2 & S3 & S4 & _ & _).
      pose proof (recv_wire cfg _ _ _ _ St) as ->.
      destruct W as [X|X|X|X|j prog X1 X2|h bd X1 X2|g X1 X2|g X|g X|X|h bd X1 X2].
      + apply at_stopped. cbn [y_client]. auto.
      + destruct (S2 _ X) as [Y|[Y|Y]]; [apply at_queued|apply at_sending|apply at_stopped]; auto.
      + destruct (S3 _ X) as [Y|[[]|Y]]; [apply at_sending|apply at_stopped]; auto.
      + apply at_up. auto.
      + eapply at_task; eauto.
      + destruct (remove_other _ _ _ _ Hb X2) as [E|Hin]; [|eapply at_down; eauto].
        eapply (at_offer _ _ _ _ (MkFrame h bd)); [exact X1|]. cbn [y_client].
        assert (Fr : frame_of b = [MkFrame h bd]).
        { unfold frame_of. rewrite <- E, frame_taken; auto. destruct X1 as (key & seq & (_ & ->) & ->). cbn [out_header hdr_seq].
          destruct (Rq _ _ Hq) as (_ & _ & _ & Lr & -> & _). exact Lr. }
        eapply (recv_offers cfg b _ _ _ _ Fr St). intros k id Hk.
        assert (Hls : In k (topics_subscribed cl)).
        { eapply reach_listed; eauto. destruct Hk as [Hk|Hk]; [left|right]; apply in_map_iff; exists (k, id); auto. }
        destruct (of_topic k (MkFrame h bd)) eqn:T; auto. exfalso. unfold of_topic in T. cbn [f_hdr] in T.
        destruct X1 as (key & seq & (Hkey & _) & ->). cbn [out_header hdr_key] in T. apply topic_shrunk in T.
        apply (A4 k key); auto. { rewrite topics_app, in_app_iff. auto. }
        destruct Hkey as [->| ->]; [right|left; auto]. destruct (Rq _ _ Hq) as (req & _ & He & _). apply (endpoint_in _ _ _ He).
      + destruct (S4 ltac:(discriminate) _ X2) as [Y|Y]; [eapply at_offer|apply at_stopped]; eauto.
      + eapply at_ok; eauto.
      + eapply at_err; eauto.
      + apply at_lost_up; auto.
      + eapply at_lost_down; eauto.
    - cbn [SystemModel.sys_step] in Hs. destruct (y_serving _ _ _ s) eqn:Sv; [|discriminate].
      destruct (nth_error (y_up _ _ _ s) i) as [b|] eqn:Hb; [|discriminate].
      destruct (take_from_slice b) as [[[hdr body]|]|] eqn:Tk; try discriminate.
      2: { injection Hs as <-. split; [exact Hrun|]. intros A2 A3 A4. rewrite <- (app_nil_r cl) in A2, A3, A4. destruct (IH' _ A2 A3 A4) as [V1 Rq].
           intros r q kk Hq Hp. cbn [y_client] in Hq.
           destruct (V1 _ _ _ Hq Hp) as [X|X|X|X|j prog X1 X2|h bd X1 X2|g X1 X2|g X|g X|X|h bd X1 X2];
             [apply at_stopped|apply at_queued|apply at_sending|apply at_up|eapply at_task|eapply at_down|eapply at_offer|eapply at_ok|eapply at_err|apply at_lost_up|eapply at_lost_down]; cbn [y_client y_up y_down y_tasks]; eauto.
           destruct (remove_other _ _ _ _ Hb X) as [E|Hin]; auto. exfalso. destruct (Rq _ _ Hq) as (req & bd & He & Lr & Es & Ef). rewrite (Ef _ Hp) in E.
           rewrite <- E in Tk. unfold shrink_frame in Tk. rewrite frame_taken in Tk; [discriminate|]. cbn. exact Lr. }
      destruct (DispatchModel.handle _ _ _ _ _ _ _ _ _ _ _ _ _) as [[ctx res] tr] eqn:Hh. injection Hs as <-. split; [exact Hrun|].
      intros A2 A3 A4. rewrite <- (app_nil_r cl) in A2, A3, A4. destruct (IH' _ A2 A3 A4) as [V1 Rq].
      intros r q kk Hq Hp. cbn [y_client] in Hq.
      destruct (V1 _ _ _ Hq Hp) as [X|X|X|X|j prog X1 X2|h bd X1 X2|g X1 X2|g X|g X|X|h bd X1 X2].
      + apply at_stopped. auto.
      + apply at_queued. auto.
      + apply at_sending. auto.
      + destruct (remove_other _ _ _ _ Hb X) as [E|Hin]; [|apply at_up; auto].
        destruct (Rq _ _ Hq) as (req & bd & He & Lr & Es & Ef). rewrite (Ef _ Hp) in E.
        rewrite <- E in Tk. unfold shrink_frame in Tk. rewrite frame_taken in Tk by exact Lr. injection Tk as <- <-.
        cbn [f_hdr f_body hdr_key hdr_seq] in Hh.
        destruct (handle_answers req (rq_resp q) kk (MkHeader (shrink_to (VKey8 req) kk) (Seq4 (N.of_nat r))) _ _ _ _ _ _ He eq_refl Hh) as (new & -> & Cs).
        rewrite skipn_app, skipn_all, Nat.sub_diag. cbn [skipn app hdr_seq] in Cs |- *.
        destruct Cs as [(w & key & p & rr & Hin & Hkey)|(a & sc & v & Ia & Ea & Fa & Hin)].
        * eapply (at_down _ _ _ _ (out_header kkind key (Seq4 (N.of_nat r))) (enc p)).
          { exists key, (Seq4 (N.of_nat r)). split; auto. split; auto. }
          cbn [y_down]. apply in_app_iff. right. eapply frames_in; eauto.
        * apply tasks_in in Hin. apply In_nth_error in Hin as (n & Hn).
          eapply (at_task _ _ _ _ (length (y_tasks _ _ _ s) + n)).
          { cbn [y_tasks]. rewrite nth_error_app2 by lia. replace (_ + n - _) with n by lia. exact Hn. }
          pose proof (Hans a sc (MkHeader (shrink_to (VKey8 req) kk) (Seq4 (N.of_nat r))) v Ia Fa) as Ss.
          unfold answers_q. rewrite Es, <- Ea. exact Ss.
      + eapply (at_task _ _ _ _ j); eauto. cbn [y_tasks]. rewrite nth_error_app1; auto. apply nth_error_Some. congruence.
      + eapply at_down; eauto. cbn [y_down]. apply in_app_iff. eauto.
      + eapply at_offer; eauto.
      + eapply at_ok; eauto.
      + eapply at_err; eauto.
      + apply at_lost_up; auto.
      + eapply at_lost_down; eauto.
    - cbn [SystemModel.sys_step] in Hs. destruct (nth_error (y_tasks _ _ _ s) i) as [[|key seq p k]|] eqn:Ht; try discriminate.
      unfold send_keyed, tx_send in Hs. injection Hs as <-. split; [exact Hrun|].
      intros A2 A3 A4. rewrite <- (app_nil_r cl) in A2, A3, A4. destruct (IH' _ A2 A3 A4) as [V1 Rq].
      set (h0 := MkHeader (shrink_to (VKey8 key) kkind) seq). set (r0 := net (y_trace _ _ _ s) h0 p).
      rewrite skipn_app, skipn_all, Nat.sub_diag. cbn [skipn app].
      intros r q kk Hq Hp. cbn [y_client] in Hq.
      destruct (V1 _ _ _ Hq Hp) as [X|X|X|X|j prog X1 X2|h bd X1 X2|g X1 X2|g X|g X|X|h bd X1 X2].
      + apply at_stopped. auto.
      + apply at_queued. auto.
      + apply at_sending. auto.
      + apply at_up. auto.
      + destruct (Nat.eq_dec j i) as [->|Hne].
        * rewrite Ht in X1. injection X1 as <-. inversion X2 as [? ? ? ? A|? ? ? ? A]; subst.
          -- eapply (at_down _ _ _ _ h0 (enc p)). { exists key, seq. split; auto. }
             cbn [y_down]. apply in_app_iff. right. left. reflexivity.
          -- eapply (at_task _ _ _ _ i (k r0)); [|apply A]. cbn [y_tasks]. eapply set_nth_some; eauto.
        * eapply (at_task _ _ _ _ j prog); auto. cbn [y_tasks]. rewrite set_nth_other by auto. auto.
      + eapply at_down; eauto. cbn [y_down]. apply in_app_iff. eauto.
      + eapply at_offer; eauto.
      + eapply at_ok; eauto.
      + eapply at_err; eauto.
      + apply at_lost_up; auto.
      + eapply at_lost_down; eauto.
    - cbn [SystemModel.sys_step] in Hs. destruct (nth_error (y_up _ _ _ s) i) as [b0|] eqn:Hb; [|discriminate]. injection Hs as <-. split; [exact Hrun|].
      intros A2 A3 A4. rewrite <- (app_nil_r cl) in A2, A3, A4. destruct (IH' _ A2 A3 A4) as [V1 Rq].
      cbn [loses_up loses_down] in Lu', Ld'. rewrite Hb in Lu'.
      intros r q kk Hq Hp. cbn [y_client] in Hq.
      destruct (V1 _ _ _ Hq Hp) as [X|X|X|X|j prog X1 X2|h bd X1 X2|g X1 X2|g X|g X|X|h bd X1 X2];
        [apply at_stopped|apply at_queued|apply at_sending|idtac|eapply at_task|eapply at_down|eapply at_offer|eapply at_ok|eapply at_err|apply at_lost_up|eapply at_lost_down]; cbn [y_client y_up y_down y_tasks]; eauto.
      destruct (remove_other _ _ _ _ Hb X) as [E|Hin]; [apply at_lost_up; apply Lu'; left; auto|apply at_up; auto].
    - cbn [SystemModel.sys_step] in Hs. destruct (nth_error (y_down _ _ _ s) i) as [b0|] eqn:Hb; [|discriminate]. injection Hs as <-. split; [exact Hrun|].
      intros A2 A3 A4. rewrite <- (app_nil_r cl) in A2, A3, A4. destruct (IH' _ A2 A3 A4) as [V1 Rq].
      cbn [loses_up loses_down] in Lu', Ld'. rewrite Hb in Ld'.
      intros r q kk Hq Hp. cbn [y_client] in Hq.
      destruct (V1 _ _ _ Hq Hp) as [X|X|X|X|j prog X1 X2|h bd X1 X2|g X1 X2|g X|g X|X|h bd X1 X2];
        [apply at_stopped|apply at_queued|apply at_sending|apply at_up|eapply at_task|idtac|eapply at_offer|eapply at_ok|eapply at_err|apply at_lost_up|eapply at_lost_down]; cbn [y_client y_up y_down y_tasks]; eauto.
      destruct (remove_other _ _ _ _ Hb X2) as [E|Hin]; [apply (at_lost_down _ _ _ _ h bd X1); apply Ld'; left; auto|apply (at_down _ _ _ _ h bd X1); auto].
    - cbn [SystemModel.sys_step] in Hs. destruct (nth_error (y_down _ _ _ s) i) as [b0|] eqn:Hb; [|discriminate]. injection Hs as <-. split; [exact Hrun|].
      intros A2 A3 A4. rewrite <- (app_nil_r cl) in A2, A3, A4. destruct (IH' _ A2 A3 A4) as [V1 Rq].
      cbn [loses_up loses_down] in Lu', Ld'. rewrite Hb in Ld'.
      intros r q kk Hq Hp. cbn [y_client] in Hq.
      destruct (V1 _ _ _ Hq Hp) as [X|X|X|X|j prog X1 X2|h bd X1 X2|g X1 X2|g X|g X|X|h bd X1 X2];
        [apply at_stopped|apply at_queued|apply at_sending|apply at_up|eapply at_task|idtac|eapply at_offer|eapply at_ok|eapply at_err|apply at_lost_up|eapply at_lost_down]; cbn [y_client y_up y_down y_tasks]; eauto.
      destruct (set_nth_elsewhere _ _ (firstn n b0) _ _ Hb X2) as [E|Hin]; [apply (at_lost_down _ _ _ _ h bd X1); apply Ld'; left; auto|apply (at_down _ _ _ _ h bd X1); auto].
    - cbn [SystemModel.sys_step] in Hs. injection Hs as <-. split; [exact Hrun|].
      intros A2 A3 A4. rewrite <- (app_nil_r cl) in A2, A3, A4. destruct (IH' _ A2 A3 A4) as [V1 Rq].
      intros r q kk Hq Hp. cbn [y_client] in Hq.
      destruct (V1 _ _ _ Hq Hp) as [X|X|X|X|j prog X1 X2|h bd X1 X2|g X1 X2|g X|g X|X|h bd X1 X2];
        [apply at_stopped|apply at_queued|apply at_sending|apply at_up|eapply at_task|eapply at_down|eapply at_offer|eapply at_ok|eapply at_err|apply at_lost_up|eapply at_lost_down]; cbn [y_client y_up y_down y_tasks]; eauto.
      rewrite <- (firstn_skipn i (y_down _ _ _ s)) in X2. apply in_app_iff in X2 as [X2|X2]; apply in_app_iff; [left; exact X2|right; right; exact X2].
  Qed.

  (** ** A system that can do nothing by itself *)
  Lemma client_can l s c e : step cfg l (y_client _ _ _ s) = Some (c, e) -> own_client l = true ->
    (forall l, own_step l = true -> sys_step l s = None) -> False.
  Proof.
    intros Hs Ho Hst. specialize (Hst (SClient l) Ho). cbn [SystemModel.sys_step] in Hst. rewrite Hs in Hst.
    destruct l; discriminate.
  Qed.

  Lemma at_rest lu ld s : LInv lu ld s -> FInv (y_client _ _ _ s) -> CInv cfg (y_client _ _ _ s) -> 0 < cfg_depth cfg -> y_serving _ _ _ s = true ->
    (forall l, own_step l = true -> sys_step l s = None) ->
    forall r q, nth_error (c_reqs (y_client _ _ _ s)) r = Some q ->
      rq_pc q = PEnded \/ (exists kk, rq_pc q = PSent kk /\
        (In (rpc_to_bytes (rq_frame q)) lu \/ exists h b, ans_hdr q h /\ In (rpc_to_bytes (MkFrame h b)) ld)).
  Proof.
    intros V1 (F1 & F2 & F3 & F4 & F5 & F6) HI Hd Sv Hst r q Hq.
    destruct (rq_pc q) eqn:Hp; auto; [exfalso|exfalso|exfalso|exfalso|].
    - eapply (client_can (LKind r)); eauto; cbn [step]. rewrite Hq, Hp. reflexivity.
    - destruct (step cfg (LEnqOk r) (y_client _ _ _ s)) as [[c e]|] eqn:E.
      + eapply (client_can (LEnqOk r)); eauto.
      + cbn [step] in E. rewrite Hq, Hp in E. destruct (is_duplicate _ _); discriminate.
    - destruct (step cfg (LEnqErr r) (y_client _ _ _ s)) as [[c e]|] eqn:E.
      + eapply (client_can (LEnqErr r)); eauto.
      + cbn [step] in E. rewrite Hq, Hp in E. destruct (is_duplicate _ _); discriminate.
    - destruct (step cfg (LSend r) (y_client _ _ _ s)) as [[c e]|] eqn:E.
      { eapply (client_can (LSend r)); eauto. }
      cbn [step] in E. rewrite Hq, Hp in E. destruct (c_out_alive _) eqn:A; cbn [negb] in E; [|discriminate].
      destruct (_ <? _) eqn:L; [discriminate|]. apply Nat.ltb_ge in L.
      destruct (c_out (y_client _ _ _ s)) as [|f0 fs] eqn:Eo; [cbn in L; lia|].
      destruct (c_sending (y_client _ _ _ s)) as [g|] eqn:Es.
      + eapply (client_can LOutSent); eauto; cbn [step]. rewrite Es. reflexivity.
      + eapply (client_can LOutPop); eauto; cbn [step]. rewrite Es, Eo, A. reflexivity.
    - assert (Stop : c_stopped (y_client _ _ _ s) = true -> False).
      { intros S. eapply (client_can (LTakeClosed r)); eauto; cbn [step]. rewrite Hq, Hp, S. reflexivity. }
      assert (Ao : c_out_alive (y_client _ _ _ s) = true) by (destruct (c_out_alive _); auto; exfalso; auto).
      assert (Ai : c_in_alive (y_client _ _ _ s) = true) by (destruct (c_in_alive _); auto; exfalso; auto).
      assert (Sending : forall f, c_sending (y_client _ _ _ s) = Some f -> False).
      { intros f Es. eapply (client_can LOutSent); eauto; cbn [step]. rewrite Es. reflexivity. }
      assert (Offer : forall f, c_offer (y_client _ _ _ s) = Some f -> False).
      { intros f Eo. destruct (existsb (fun w => header_eqb (w_hdr w) (f_hdr f)) (c_waiters (y_client _ _ _ s))) eqn:Ex.
        - apply existsb_exists in Ex as (w & Hw & Hh). apply In_nth_error in Hw as (i & Hi).
          destruct (wi_from _ _ _ HI w (nth_error_In _ _ Hi)) as (q1 & k1 & K1 & _).
          eapply (client_can (LWake (Some i))); eauto; cbn [step]. rewrite Eo, Hi, Hh, K1. reflexivity.
        - eapply (client_can (LWake None)); eauto; cbn [step]. rewrite Eo, Ex. reflexivity. }
      assert (Bl : s_blocked (c_subs (y_client _ _ _ s)) = None).
      { destruct (s_blocked (c_subs (y_client _ _ _ s))) as [[[c0 f] rm]|] eqn:B; auto. exfalso.
        eapply (client_can (LUnblock TimeUp)); eauto; cbn [step sub_step]. unfold unblock. rewrite B, Ai. reflexivity. }
      destruct (V1 _ _ _ Hq Hp) as [X|X|X|X|j prog X1 X2|h bd X1 X2|g X1 X2|g X|g X|X|h bd X1 X2]; [exfalso; eauto|exfalso|exfalso; eauto|exfalso|exfalso|exfalso|exfalso; eauto|exfalso|exfalso|right; eauto|right; eauto 9].
      + destruct (c_out (y_client _ _ _ s)) as [|f0 fs] eqn:Eo; [destruct X|].
        destruct (c_sending (y_client _ _ _ s)) as [g|] eqn:Es; [eauto|].
        eapply (client_can LOutPop); eauto; cbn [step]. rewrite Es, Eo, Ao. reflexivity.
      + apply In_nth_error in X as (i & Hi). specialize (Hst (SServe i) eq_refl). cbn [SystemModel.sys_step] in Hst. rewrite Sv, Hi in Hst.
        destruct (take_defined (rpc_to_bytes (rq_frame q))) as (o & E). rewrite E in Hst.
        destruct o as [[h b]|]; [|discriminate]. destruct (DispatchModel.handle _ _ _ _ _ _ _ _ _ _ _ _ _) as [[ctx res] tr]. discriminate.
      + specialize (Hst (STask j) eq_refl). cbn [SystemModel.sys_step] in Hst. rewrite X1 in Hst. inversion X2; subst;
          destruct (send_keyed _ _ _ _ _ _ _ _ _); discriminate.
      + apply In_nth_error in X2 as (i & Hi). specialize (Hst (SRecv i) eq_refl). cbn [SystemModel.sys_step] in Hst. rewrite Hi in Hst.
        destruct (take_defined (rpc_to_bytes (MkFrame h bd))) as (o & E).
        assert (St : exists c e, step cfg (LRecv (rpc_to_bytes (MkFrame h bd))) (y_client _ _ _ s) = Some (c, e)).
        { cbn [step]. destruct (c_offer (y_client _ _ _ s)) as [g|] eqn:Eo; [exfalso; eauto|]. rewrite Ai, E. unfold blocked at 1. rewrite Bl. cbn [negb orb].
          destruct o as [[h1 b1]|]; [|eauto]. cbn [sub_step]. unfold blocked. rewrite Bl, F5 by auto. cbn [orb].
          destruct (deliver _ _ _) as [s1 []]; eauto. }
        destruct St as (c & e & St). rewrite St in Hst. discriminate.
      + eapply (client_can (LTakeOk r)); eauto; cbn [step]. rewrite Hq, Hp, X. reflexivity.
      + eapply (client_can (LTakeErr r)); eauto; cbn [step]. rewrite Hq, Hp, X. reflexivity.
  Qed.
End S.

(** A request that ended was dropped or returned. *)
Lemma reach_ended cfg cl c es r : run cfg cl client_new = Some (c, es) -> ended c r -> In (LCancel r) cl \/ exists res, In (r, res) (results es).
Proof.
  revert cl c es. apply (run_ind cfg (fun cl c es => ended c r -> In (LCancel r) cl \/ exists res, In (r, res) (results es))).
  - intros (q & Hq & _). destruct r; discriminate.
  - intros ls c es l c' e Hr IH Hs (q' & Hq' & Hp'). rewrite in_app_iff, results_app.
    pose proof (reach_cinv _ _ _ _ Hr) as HI.
    destruct (nth_error (c_reqs c) r) as [q|] eqn:Hq.
    + assert (De : rq_pc q = PEnded \/ rq_pc q <> PEnded) by (destruct (rq_pc q); (left; reflexivity) || (right; discriminate)).
      destruct De as [De|De].
      * destruct IH as [X|(res & X)]; [exists q; auto|auto|]. right. exists res. apply in_app_iff. auto.
      * destruct (step_running _ _ _ _ _ _ _ Hs HI (conj Hq De)) as [(-> & _)|[(res & E & _)|(q2 & [Q1 Q2] & _)]].
        -- left. right. left. auto.
        -- right. exists res. apply in_app_iff. right. rewrite (step_results _ _ _ _ _ Hs), E. left. auto.
        -- congruence.
    + exfalso. pose proof (step_cstep _ _ _ _ _ Hs) as HC. remember (c_reqs c) as reqs eqn:E1. remember (c_reqs c') as reqs' eqn:E2.
      destruct HC; try congruence;
      repeat match goal with H : nth_error (set_nth _ _ _) _ = Some _ |- _ => apply set_nth_inv in H as [[-> ->]|[? H]]; [congruence|] end; try congruence.
      apply nth_app_last in Hq' as [Hq'|[_ ->]]; [congruence|discriminate].
Qed.
