(** Exactly how many messages a broadcast subscriber may leave waiting (C58). *)
From Coq Require Import NArith List Bool Arith Lia.
From Verif Require Import KeyModel HeaderModel SubModel SubSpec SubProof SubThm SubThm2 SubThm3.
Import ListNotations.

Lemma missed_cons r rs : missed (r :: rs) = missed [r] + missed rs.
Proof. unfold missed, list_sum. cbn [map fold_right]. lia. Qed.

Lemma r_run_miss_iff cap es : forall arr pos, pos <= length arr ->
  (missed (r_run cap (arr, pos) es) = 0 <->
   forall a b, es = a ++ RRecv :: b ->
     length arr + length (m_arrivals a) <= pos + length (got_frames (r_run cap (arr, pos) a)) + cap).
Proof.
  induction es as [|e es IH]; intros arr pos P.
  { split; [|reflexivity]. intros _ a b E. destruct a; discriminate E. }
  destruct e as [f|]; cbn [r_run r_step app].
  - rewrite IH by (rewrite app_length; lia). split.
    + intros H a b E. destruct a as [|e a]; [discriminate E|]. injection E as <- E. specialize (H a b E).
      cbn [r_run r_step app m_arrivals flat_map length]. change (flat_map _ a) with (m_arrivals a).
      rewrite app_length in H. cbn in H. lia.
    + intros H a b E. specialize (H (RArrive f :: a) b ltac:(now rewrite E)).
      cbn [r_run r_step app m_arrivals flat_map length] in H. change (flat_map _ a) with (m_arrivals a) in H.
      rewrite app_length. cbn. lia.
  - destruct (Nat.ltb_spec (pos + cap) (length arr)) as [L|L].
    { split.
      - intros H. cbn [app] in H. rewrite missed_cons in H. unfold missed at 1 in H. cbn in H. lia.
      - intros H. specialize (H [] es eq_refl). cbn in H. lia. }
    destruct (nth_error arr pos) as [f|] eqn:N.
    + assert (Lp : pos < length arr) by (apply nth_error_Some; congruence). cbn [app].
      rewrite missed_cons. change (missed [MGot f]) with 0. cbn [Nat.add]. rewrite IH by lia. split.
      * intros H a b E. destruct a as [|e a]; [cbn; lia|]. injection E as <- E. specialize (H a b E).
        cbn [r_run r_step]. replace (pos + cap <? length arr) with false by (symmetry; apply Nat.ltb_ge; lia). rewrite N.
        cbn [app]. unfold got_frames in *. cbn [flat_map app length m_arrivals]. change (flat_map _ a) with (m_arrivals a) at 1. lia.
      * intros H a b E. specialize (H (RRecv :: a) b ltac:(now rewrite E)). cbn [r_run r_step] in H.
        replace (pos + cap <? length arr) with false in H by (symmetry; apply Nat.ltb_ge; lia). rewrite N in H.
        cbn [app] in H. unfold got_frames in *. cbn [flat_map app length m_arrivals] in H. change (flat_map _ a) with (m_arrivals a) in H at 1. lia.
    + cbn [app]. rewrite missed_cons. change (missed [MWaiting]) with 0. cbn [Nat.add]. rewrite IH by lia. split.
      * intros H a b E. destruct a as [|e a]; [cbn; lia|]. injection E as <- E. specialize (H a b E).
        cbn [r_run r_step]. replace (pos + cap <? length arr) with false by (symmetry; apply Nat.ltb_ge; lia). rewrite N. exact H.
      * intros H a b E. specialize (H (RRecv :: a) b ltac:(now rewrite E)). cbn [r_run r_step] in H.
        replace (pos + cap <? length arr) with false in H by (symmetry; apply Nat.ltb_ge; lia). rewrite N in H. exact H.
Qed.

Lemma view_split k id more : forall a b, m_view k id more = a ++ RRecv :: b ->
  exists a' b', more = a' ++ ReceiveM id :: b' /\ m_view k id a' = a.
Proof.
  induction more as [|o more IH]; intros a b E; [destruct a; discriminate E|].
  assert (Skip : m_view k id more = a ++ RRecv :: b -> (forall l, m_view k id (o :: l) = m_view k id l) ->
     exists a' b', o :: more = a' ++ ReceiveM id :: b' /\ m_view k id a' = a).
  { intros X Y. destruct (IH _ _ X) as (a' & b' & -> & Z). exists (o :: a'), b'. rewrite Y. auto. }
  destruct o; cbn [m_view] in E; try (apply Skip; auto; fail).
  - destruct (of_topic k f) eqn:OT; [|apply Skip; auto; intros l; cbn [m_view]; now rewrite OT].
    destruct a as [|e a]; [discriminate E|]. injection E as <- E. destruct (IH _ _ E) as (a' & b' & -> & Z).
    exists (Deliver f :: a'), b'. cbn [m_view]. rewrite OT, Z. auto.
  - destruct (id0 =? id) eqn:OT; [|apply Skip; auto; intros l; cbn [m_view]; now rewrite OT].
    destruct a as [|e a]; injection E as E.
    + apply Nat.eqb_eq in OT. subst id0. exists [], more. auto.
    + subst e. destruct (IH _ _ H) as (a' & b' & -> & Z). exists (ReceiveM id0 :: a'), b'. cbn [m_view]. rewrite OT, Z. auto.
Qed.

(** ** Who decided the size of a channel *)
Definition sized (tr : Trace) (s : Subs) : Prop :=
  forall k c b, In (k, c) (broadcast_list s) -> nth_error (s_bcasts s) c = Some b ->
    exists d0 id0, In (SubscribeMulti k d0, ORes (Subscribed id0)) tr /\ b_cap b = next_power_of_two d0.

Lemma sized_mono tr e s s' :
  (forall k c, In (k, c) (broadcast_list s') -> In (k, c) (broadcast_list s)) ->
  (forall c b', nth_error (s_bcasts s') c = Some b' -> exists b, nth_error (s_bcasts s) c = Some b /\ b_cap b = b_cap b') ->
  sized tr s -> sized (tr ++ [e]) s'.
Proof.
  intros A B H k c b' I N. destruct (B _ _ N) as (b & Nb & E). destruct (H k c b (A _ _ I) Nb) as (d0 & id0 & T & C).
  exists d0, id0. split; [apply in_app_iff; auto|congruence].
Qed.
Lemma retain_sub b key l (e : Key8 * nat) : In e (retain b key l) -> In e l.
Proof. unfold retain. destruct b; [|auto]. intros H. apply filter_In in H. tauto. Qed.
Lemma send_caps c f s bs fl : bcast_send c f s = (bs, fl) ->
  forall c' b', nth_error bs c' = Some b' -> exists b, nth_error (s_bcasts s) c' = Some b /\ b_cap b = b_cap b'.
Proof.
  unfold bcast_send. intros H c' b' N. destruct (has_receiver c (s_mrxs s)); [|injection H as <- <-; eauto].
  destruct (nth_error (s_bcasts s) c) as [b0|] eqn:N0; injection H as <- <-; [|eauto].
  destruct (Nat.eq_dec c c') as [<-|D].
  - rewrite (set_nth_some _ _ _ _ _ N0) in N. injection N as <-. eauto.
  - rewrite set_nth_other in N by exact D. eauto.
Qed.

Lemma sized_step nw o s s' e tr : Inv tr s -> sized tr s -> sub_step nw o s = Some (s', e) -> sized (tr ++ [(o, e)]) s'.
Proof.
  intros I H E.
  assert (Same : broadcast_list s' = broadcast_list s -> s_bcasts s' = s_bcasts s -> sized (tr ++ [(o, e)]) s').
  { intros A B. apply (sized_mono tr _ s); [rewrite A|rewrite B|]; eauto. }
  destruct o; cbn [sub_step] in E.
  - destruct (blocked s); [discriminate|]. destruct (subscribe_mpsc false k depth s) as [s0 r] eqn:Q. injection E as <- <-. unfold subscribe_mpsc in Q.
    repeat (match type of Q with context [match ?x with _ => _ end] => destruct x end; try discriminate);
      injection Q as <- <-; apply Same; reflexivity.
  - destruct (blocked s); [discriminate|]. destruct (subscribe_mpsc true k depth s) as [s0 r] eqn:Q. injection E as <- <-. unfold subscribe_mpsc in Q.
    repeat (match type of Q with context [match ?x with _ => _ end] => destruct x end; try discriminate);
      injection Q as <- <-; apply Same; reflexivity.
  - destruct (blocked s); [discriminate|]. destruct (subscribe_multi k depth s) as [s0 r] eqn:Q. injection E as <- <-. unfold subscribe_multi in Q.
    destruct (s_stopped s); [injection Q as <- <-; now apply Same|].
    destruct (find _ _) as [[k' c]|]; [injection Q as <- <-; now apply Same|].
    destruct depth as [|d]; [injection Q as <- <-; now apply Same|]. injection Q as <- <-.
    intros k1 c1 b1 I1 N1. cbn [broadcast_list s_bcasts] in I1, N1. apply in_app_iff in I1. destruct I1 as [I1|[I1|[]]].
    + pose proof (i_blt _ _ I _ _ I1) as L. rewrite nth_error_app1 in N1 by exact L.
      destruct (H _ _ _ I1 N1) as (d0 & id0 & T & C). exists d0, id0. split; [apply in_app_iff; auto|exact C].
    + injection I1 as <- <-. rewrite nth_error_app2, Nat.sub_diag in N1 by lia. injection N1 as <-.
      exists (S d), (length (s_mrxs s)). split; [apply in_app_iff; right; now left|reflexivity].
  - destruct (blocked s || s_stopped s)%bool; [discriminate|]. destruct (deliver nw f s) as [s1 d] eqn:D. injection E as <- <-.
    apply (sized_mono tr _ s); [| |exact H]; unfold deliver in D.
    + intros k c X. destruct (find _ (broadcast_list s)) as [[k' c']|];
        [destruct (bcast_send _ _ _) as [bs fl]|];
        (destruct (find _ (exclusive_list _)) as [[k2 c2]|]; [destruct (mpsc_try_send _ _ _) as [ch [| |]]|];
         try destruct nw; injection D as <- <-; cbn [finish with_exclusive broadcast_list] in X; try exact X; eapply retain_sub; exact X).
    + intros c b X. destruct (find _ (broadcast_list s)) as [[k' c']|];
        [destruct (bcast_send _ _ _) as [bs fl] eqn:B|];
        (destruct (find _ (exclusive_list _)) as [[k2 c2]|]; [destruct (mpsc_try_send _ _ _) as [ch [| |]]|];
         try destruct nw; injection D as <- <-; cbn [finish with_exclusive s_bcasts] in X; try (eapply send_caps; eauto; fail); eauto).
  - destruct (unblock w s) as [s1|] eqn:U; [|discriminate]. injection E as <- <-. unfold unblock in U.
    destruct (s_blocked s) as [[[c f] rm]|]; [|discriminate].
    assert (X : exists a b x, s1 = finish a b rm (with_exclusive s (exclusive_list s) x)).
    { destruct w, (mpsc_try_send c f (s_chans s)) as [ch [| |]]; try discriminate U; injection U as <-;
        (do 2 eexists; exists ch; reflexivity) || (do 2 eexists; exists (s_chans s); destruct s; reflexivity). }
    destruct X as (a & b & x & ->). apply (sized_mono tr _ s); [| |exact H].
    + intros k1 c1 Y. eapply retain_sub. exact Y.
    + intros c1 b1 Y. cbn [finish with_exclusive s_bcasts] in Y. eauto.
  - destruct (x_alive id s); [|discriminate]. destruct (recv_exclusive id s) as [s0 r] eqn:Q. injection E as <- <-. unfold recv_exclusive in Q.
    repeat (match type of Q with context [match ?x with _ => _ end] => destruct x end; try discriminate);
      injection Q as <- <-; apply Same; reflexivity.
  - destruct (m_alive id s); [|discriminate]. destruct (recv_multi id s) as [s0 r] eqn:Q. injection E as <- <-. unfold recv_multi in Q.
    repeat (match type of Q with context [match ?x with _ => _ end] => destruct x end; try discriminate);
      injection Q as <- <-; apply Same; reflexivity.
  - destruct (x_alive id s); [|discriminate]. injection E as <- <-. unfold drop_exclusive in *.
    repeat (match goal with |- context [match ?x with _ => _ end] => destruct x end); apply Same; reflexivity.
  - destruct (m_alive id s); [|discriminate]. injection E as <- <-. unfold drop_multi in *.
    repeat (match goal with |- context [match ?x with _ => _ end] => destruct x end); apply Same; reflexivity.
  - injection E as <- <-. intros k1 c1 b1 X. destruct X.
Qed.

Lemma sized_run nw ops : forall tr s s' outs, Inv tr s -> sized tr s -> sub_run nw ops s = Some (s', outs) ->
  sized (tr ++ combine ops outs) s'.
Proof.
  induction ops as [|o ops IH]; intros tr s s' outs I H R; cbn [sub_run] in R.
  - injection R as <- <-. cbn. now rewrite app_nil_r.
  - destruct (sub_step nw o s) as [[s1 e]|] eqn:E; [|discriminate].
    destruct (sub_run nw ops s1) as [[s2 es]|] eqn:R1; [|discriminate]. injection R as <- <-.
    pose proof (IH (tr ++ [(o, e)]) s1 _ _ (inv_step _ _ _ _ _ _ I E) (sized_step _ _ _ _ _ _ I H E) R1) as X.
    rewrite <- app_assoc in X. exact X.
Qed.

Lemma reader_sized nw ops s outs k d id s1 :
  sub_run nw ops subs_new = Some (s, outs) ->
  sub_step nw (SubscribeMulti k d) s = Some (s1, ORes (Subscribed id)) ->
  exists opener,
    (opener = d \/ exists id0, In (SubscribeMulti k opener, ORes (Subscribed id0)) (combine ops outs)) /\
    ((forall id', ~ obtained_multi (combine ops outs) k id') -> opener = d) /\
    forall more s2 outs2,
      sub_run nw more s1 = Some (s2, outs2) -> m_undisturbed id more ->
      no_confusion k (multi_keys (ops ++ [SubscribeMulti k d] ++ more)) more ->
      m_results id more outs2 = r_run (next_power_of_two opener) ([], 0) (m_view k id more).
Proof.
  intros R St.
  destruct (inv_run _ _ _ _ _ _ inv_new R) as [L I]. cbn [app] in I.
  assert (Sz : sized (combine ops outs) s).
  { apply (sized_run nw ops [] _ _ _ inv_new); [|exact R]. intros k1 c1 b1 []. }
  pose proof (inv_step _ _ _ _ _ _ I St) as I1.
  assert (Kx : forall more k' c', In (k', c') (broadcast_list s1) -> In k' (multi_keys (ops ++ [SubscribeMulti k d] ++ more))).
  { intros more k' c' X. apply (i_bk _ _ I1) in X. destruct X as [i X]. apply obtained_multi_app in X.
    unfold multi_keys. rewrite !flat_map_app, !in_app_iff. destruct X as [(d' & X)|(d' & X)].
    - left. apply in_combine_l in X. apply in_flat_map. eexists. split; [exact X|]. now left.
    - right. left. injection X as <- _ _. now left. }
  assert (Inc : forall more, incl (multi_keys more) (multi_keys (ops ++ [SubscribeMulti k d] ++ more))).
  { intros more. unfold multi_keys. rewrite !flat_map_app. apply incl_appr, incl_appr, incl_refl. }
  cbn [sub_step] in St. unfold blocked in St. destruct (s_blocked s) eqn:BN; [discriminate|].
  destruct (subscribe_multi k d s) as [s1' r] eqn:E. injection St as -> ->.
  unfold subscribe_multi in E. destruct (s_stopped s); [discriminate|].
  destruct (find _ _) as [[k' c]|] eqn:F.
  - apply find_key in F. cbn in F. destruct F as [-> F]. injection E as <- <-.
    destruct (nth_error (s_bcasts s) c) as [b|] eqn:Nb.
    2: { apply nth_error_None in Nb. apply (i_blt _ _ I) in F. lia. }
    destruct (Sz _ _ _ F Nb) as (d0 & id0 & T & C). exists d0. split; [right; eauto|]. split.
    + intros No. exfalso. destruct (i_bk _ _ I _ _ F) as [i Hi]. apply (No i Hi).
    + intros more s2 outs2 R2 U NC. rewrite <- C.
      refine (m_sim nw k _ c (b_cap b) (b_log b) _ more _ _ [] 0 s2 outs2 I1 _ (Inc more) NC U R2).
      constructor; cbn [broadcast_list s_bcasts s_mrxs s_blocked]; auto.
      * apply Kx.
      * rewrite app_nil_r. destruct b; auto.
      * rewrite nth_error_app2, Nat.sub_diag by lia. cbn. do 2 f_equal. lia.
      * intros. congruence.
  - destruct d as [|d]; [discriminate|]. injection E as <- <-. exists (S d). split; [auto|]. split; [reflexivity|].
    intros more s2 outs2 R2 U NC.
    refine (m_sim nw k _ (length (s_bcasts s)) (next_power_of_two (S d)) [] _ more _ _ [] 0 s2 outs2 I1 _ (Inc more) NC U R2).
    constructor; cbn [broadcast_list s_bcasts s_mrxs s_blocked]; auto.
    * apply Kx.
    * apply in_app_iff. right. now left.
    * rewrite nth_error_app2, Nat.sub_diag by lia. reflexivity.
    * rewrite nth_error_app2, Nat.sub_diag by lia. reflexivity.
    * intros. congruence.
Qed.

(** *** C58 What a broadcast subscription may leave waiting

    It is a power of two: the first one that is not less than the depth asked for by whoever
    opened the channel, which is either the subscriber itself or an earlier one of the same topic.
    The subscriber loses nothing if and only if, whenever it asks for a message, no more than
    that many have arrived that it was not given.  (Missing with respect to the full statement:
    that the number is the depth it asked for itself, which is false, see [C58_refuted].) *)
Theorem C58_exactly_partial :
  forall no_wait ops s outs k depth id s1,
    sub_run no_wait ops subs_new = Some (s, outs) ->
    sub_step no_wait (SubscribeMulti k depth) s = Some (s1, ORes (Subscribed id)) ->
    exists opener,
      (opener = depth \/ exists id0, In (SubscribeMulti k opener, ORes (Subscribed id0)) (combine ops outs)) /\
      ((forall id', ~ obtained_multi (combine ops outs) k id') -> opener = depth) /\
      forall more s2 outs2,
        sub_run no_wait more s1 = Some (s2, outs2) ->
        m_undisturbed id more ->
        no_confusion k (multi_keys (ops ++ [SubscribeMulti k depth] ++ more)) more ->
        (missed (m_results id more outs2) = 0 <->
         forall a b sa oa, more = a ++ ReceiveM id :: b -> sub_run no_wait a s1 = Some (sa, oa) ->
           length (arrivals k a) <= length (got_frames (m_results id a oa)) + next_power_of_two opener).
Proof.
  intros nw ops s outs k d id s1 R St. destruct (reader_sized _ _ _ _ _ _ _ _ R St) as (o & A & B & E).
  exists o. split; [exact A|]. split; [exact B|]. intros more s2 outs2 R2 U NC.
  assert (Pre : forall a b sa oa, more = a ++ b -> sub_run nw a s1 = Some (sa, oa) ->
     m_results id a oa = r_run (next_power_of_two o) ([], 0) (m_view k id a)).
  { intros a b sa oa -> Ra. apply (E a sa oa Ra).
    - destruct U as [U1 U2]. split; intros Y; [apply U1|apply U2]; apply in_app_iff; auto.
    - intros f k' Y1 Y2 Y3. apply (NC f k'); auto; [apply in_app_iff; auto|].
      unfold multi_keys in *. rewrite !flat_map_app in *. rewrite !in_app_iff in *. tauto. }
  rewrite (E _ _ _ R2 U NC), r_run_miss_iff by (cbn; lia). cbn [length Nat.add]. split.
  - intros H a b sa oa Em Ra. rewrite (Pre a _ sa oa Em Ra).
    specialize (H (m_view k id a) (m_view k id b)). rewrite m_view_arrivals in H. apply H.
    rewrite Em, m_view_app. cbn [m_view]. now rewrite Nat.eqb_refl.
  - intros H a b Ev. destruct (view_split _ _ _ _ _ Ev) as (a' & b' & Em & <-). rewrite m_view_arrivals.
    pose proof R2 as R3. rewrite Em, run_app in R3. destruct (sub_run nw a' s1) as [[sa oa]|] eqn:Ra; [|discriminate].
    specialize (H a' b' sa oa Em Ra). rewrite (Pre a' _ sa oa Em Ra) in H. exact H.
Qed.
Print Assumptions C58_exactly_partial.

(** The case of [C58_refuted]: opened with depth 3, joined with depth 1; five messages are too many,
    four are not. *)
Definition e58_prefix := [SubscribeMulti ka 3].
Definition e58_frames (n : nat) := map (fun i => Deliver (long_frame ka [N.of_nat i])) (seq 0 n).
Example C58_exactly_ex :
  next_power_of_two 3 = 4 /\
  (exists s s1 s2 s3 o2 o3,
    sub_run true e58_prefix subs_new = Some (s, [ORes (Subscribed 0)]) /\
    sub_step true (SubscribeMulti ka 1) s = Some (s1, ORes (Subscribed 1)) /\
    sub_run true (e58_frames 4 ++ [ReceiveM 1]) s1 = Some (s2, o2) /\
    m_results 1 (e58_frames 4 ++ [ReceiveM 1]) o2 = [MGot (long_frame ka [0%N])] /\
    sub_run true (e58_frames 5 ++ [ReceiveM 1]) s1 = Some (s3, o3) /\
    m_results 1 (e58_frames 5 ++ [ReceiveM 1]) o3 = [MLagged 1]).
Proof.
  split; [reflexivity|]. do 6 eexists. repeat (split; [vm_compute; reflexivity|]). vm_compute. reflexivity.
Qed.
