(** Theorems about a sender that tasks share: C98. *)
From Coq Require Import NArith List Bool Arith Lia Permutation.
From Verif Require Import UsbModel UsbSpec UsbProof UsbThm TurnModel TurnSpec TurnProof.
Import ListNotations.

(** A send that has ended had its turn: between its beginning and its end nobody else's send
    was begun or ended, and no setting made.  It ended within as many milliseconds of the
    beginning of its turn - however long it had waited for that - as its packets times the
    setting in force when its turn began; and if it was given up for lack of time, then
    exactly after these. *)
Theorem C98_timer_starts_with_the_turn :
  forall es s, t_run t_new es = Some s ->
  forall pre post i r t, s_log s = pre ++ HEnded i r t :: post ->
  exists before m t0 between,
    pre = before ++ HBegan i m t0 :: between /\ only_asking between /\
    (t0 <= t <= t0 + frames m * in_force before)%N /\
    (r = TTimeout -> t = t0 + frames m * in_force before)%N.
Proof. intros es s H. exact (i_ended s (inv_run es _ _ inv_new H)). Qed.
Print Assumptions C98_timer_starts_with_the_turn.

Lemma same_open a b i m t i' m' t' c d : only_asking c -> only_asking d ->
  a ++ HBegan i m t :: c = b ++ HBegan i' m' t' :: d -> i = i'.
Proof.
  intros C D. revert b. induction a as [|x a IH]; intros [|y b] E.
  - cbn in E. congruence.
  - cbn in E. injection E as _ E. exfalso. subst c. apply Forall_app in C as [_ C]. inversion C; subst. assumption.
  - cbn in E. injection E as _ E. exfalso. subst d. apply Forall_app in D as [_ D]. inversion D; subst. assumption.
  - cbn in E. injection E as _ E. exact (IH _ E).
Qed.
Definition begun_well (open : bool) (log : list Happened) : Prop :=
  forall pre post i m t0, log = pre ++ HBegan i m t0 :: post ->
    (exists between r t rest, post = between ++ HEnded i r t :: rest /\ only_asking between) \/ (open = true /\ only_asking post).
Lemma begun_more o log h : begun_well o log -> match h with HBegan _ _ _ => False | _ => True end ->
  (o = true -> match h with HAsked _ _ _ | HLeft _ _ => True | _ => False end) -> begun_well o (log ++ [h]).
Proof.
  intros W Hh Ho pre post i m t E. destruct post as [|x post] using rev_ind.
  - apply app_inj_tail in E as [_ ->]. contradiction.
  - clear IHpost. rewrite app_comm_cons, app_assoc in E. apply app_inj_tail in E as [E ->]. destruct (W _ _ _ _ _ E) as [(b & r & t1 & re & Q & A)|[O A]].
    + left. exists b, r, t1, (re ++ [x]). rewrite Q, <- app_assoc. auto.
    + right. split; [exact O|]. apply Forall_app. split; [exact A|]. constructor; [exact (Ho O)|constructor].
Qed.
Lemma begun_one log i m t : begun_well false log -> begun_well true (log ++ [HBegan i m t]).
Proof.
  intros W pre post i' m' t' E. destruct post as [|x post] using rev_ind.
  - right. split; [reflexivity|constructor].
  - clear IHpost. rewrite app_comm_cons, app_assoc in E. apply app_inj_tail in E as [E <-]. destruct (W _ _ _ _ _ E) as [(b & r & t1 & re & Q & A)|[O _]]; [|discriminate].
    left. exists b, r, t1, (re ++ [HBegan i m t]). rewrite Q, <- app_assoc. auto.
Qed.
Lemma begun_end before i m t0 between r t : only_asking between -> begun_well true (before ++ HBegan i m t0 :: between) ->
  begun_well false ((before ++ HBegan i m t0 :: between) ++ [HEnded i r t]).
Proof.
  intros A W pre post i' m' t' E. destruct post as [|x post] using rev_ind.
  - apply app_inj_tail in E as [_ E]. discriminate.
  - clear IHpost. rewrite app_comm_cons, app_assoc in E. apply app_inj_tail in E as [E <-]. destruct (W _ _ _ _ _ E) as [(b & r1 & t1 & re & Q & A')|[_ A']].
    + left. exists b, r1, t1, (re ++ [HEnded i r t]). rewrite Q, <- app_assoc. auto.
    + left. pose proof (same_open _ _ _ _ _ _ _ _ _ _ A A' E) as <-. exists post, r, t, []. auto.
Qed.
Definition is_open (s : TSt) : bool := match s_turn s with Some _ => true | None => false end.
Lemma begun_step s e s' : Inv s -> begun_well (is_open s) (s_log s) -> t_step s e = Some s' -> begun_well (is_open s') (s_log s').
Proof.
  intros I W. pose proof (i_turn s I) as T. unfold is_open in *. destruct e as [op|k|k| | |b|b|b]; cbn [t_step].
  - intros E. injection E as <-. cbn [s_turn s_log]. apply begun_more; auto.
  - destruct (take_nth k (s_waiting s)) as [[[i op] rest]|]; [|discriminate]. intros E. injection E as <-. cbn. apply begun_more; auto.
  - destruct (s_turn s) as [t|] eqn:Ht; [discriminate|]. destruct (take_nth k (s_waiting s)) as [[[i op] rest]|]; [|discriminate].
    intros E. injection E as <-. destruct op as [[|b m]|ms]; cbn [give s_turn s_log].
    + rewrite app_assoc. apply (begun_end (s_log s) i [] (s_clock s) []); [constructor|]. apply begun_one. exact W.
    + apply begun_one. exact W.
    + apply begun_more; auto. discriminate.
  - destruct (match s_turn s with Some t => (s_clock s <? t_deadline t)%N | None => true end); [|discriminate].
    intros E. injection E as <-. exact W.
  - destruct (s_turn s) as [t|] eqn:Ht; [|discriminate]. destruct T as (before & t0 & between & E0 & A & _).
    destruct (t_todo t) as [|p [|p2 rest]]; intros E; try discriminate; injection E as <-; cbn [end_turn s_turn s_log].
    + rewrite E0 in *. apply begun_end; assumption.
    + exact W.
  - destruct (s_turn s) as [t|] eqn:Ht; [|discriminate]. destruct T as (before & t0 & between & E0 & A & _).
    intros E. injection E as <-. cbn [end_turn s_turn s_log]. rewrite E0 in *. apply begun_end; assumption.
  - destruct (s_turn s) as [t|] eqn:Ht; [|discriminate]. destruct T as (before & t0 & between & E0 & A & _).
    destruct (t_deadline t <=? s_clock s)%N; [|discriminate].
    intros E. injection E as <-. cbn [end_turn s_turn s_log]. rewrite E0 in *. apply begun_end; assumption.
  - destruct (s_turn s) as [t|] eqn:Ht; [|discriminate]. destruct T as (before & t0 & between & E0 & A & _).
    intros E. injection E as <-. cbn [end_turn s_turn s_log]. rewrite E0 in *. apply begun_end; assumption.
Qed.
Lemma begun_run es : forall s s', Inv s -> begun_well (is_open s) (s_log s) -> t_run s es = Some s' -> begun_well (is_open s') (s_log s').
Proof.
  induction es as [|e es IH]; intros s s' I W; cbn [t_run]; [intros E; injection E as <-; exact W|].
  destruct (t_step s e) as [s1|] eqn:E1; [|discriminate]. apply IH; [exact (inv_step _ _ _ I E1)|exact (begun_step _ _ _ I W E1)].
Qed.
(** A send that has begun its turn has ended it before anybody else's turn begins or a
    setting is made - or it is still under way, and nothing has happened since but that
    tasks ask. *)
Theorem C98_one_at_a_time :
  forall es s, t_run t_new es = Some s ->
  forall pre post i m t0, s_log s = pre ++ HBegan i m t0 :: post ->
    (exists between r t rest, post = between ++ HEnded i r t :: rest /\ only_asking between) \/ only_asking post.
Proof.
  intros es s H pre post i m t0 E. destruct (begun_run es _ _ inv_new (fun pre post i m t E => match app_cons_not_nil pre post _ E with end) H _ _ _ _ _ E) as [A|[_ A]]; auto.
Qed.
Print Assumptions C98_one_at_a_time.

(** ** The wire *)
(** What a host makes of the packets is what it makes of the sends one after the other, in the
    order of their turns (see [seen]: the complete ones whole, of the others at most the
    beginning, by itself); a send under way is as one that is dropped now. *)
Theorem C98_host_sees_the_turns :
  forall es s, t_run t_new es = Some s ->
    let so_far := sends_of (s_log s) ++ match s_turn s with Some t => [(t_msg t, TDropped)] | None => [] end in
    let '(ts, part) := transfers [] (s_wire s) in
    seen None (map (fun x => (fst x, outcome (snd x))) so_far) ts part.
Proof.
  intros es s H. pose proof (inv_run es _ _ inv_new H) as I. cbn zeta.
  assert (G : forall s, Inv s -> s_turn s = None ->
    let '(ts, part) := transfers [] (s_wire s) in seen None (map (fun x => (fst x, outcome (snd x))) (sends_of (s_log s))) ts part).
  { clear. intros s I Ht. destruct (i_wire s I) as (sends & w0 & p0 & rs & Es & Ec & X). rewrite Ht in X. destruct X as [-> _].
    pose proof (C16_interrupted_sends sends) as C. rewrite Es in C. destruct (transfers [] w0) as [ts part]. rewrite <- Ec. apply C. }
  destruct (s_turn s) as [t|] eqn:Ht; [|rewrite app_nil_r; apply G; assumption].
  assert (D : t_step s (Drop false) = Some (end_turn s t TDropped (s_pending s) [])) by (cbn [t_step]; rewrite Ht; reflexivity).
  pose proof (G _ (inv_step _ _ _ I D) eq_refl) as Q. cbn [end_turn s_wire s_log] in Q. rewrite app_nil_r in Q.
  unfold sends_of in Q. rewrite turns_app in Q. cbn [turns] in Q.
  pose proof (i_turn s I) as T. rewrite Ht in T. destruct T as (before & t0 & between & E0 & A & _).
  replace (last_msg [] (s_log s)) with (t_msg t) in Q; [exact Q|]. rewrite E0. symmetry. apply last_turn. exact A.
Qed.
Print Assumptions C98_host_sees_the_turns.

(** ** Everybody is served *)
Definition cost (op : Op) : N := match op with OpSet _ => 1 | OpSend m => 4 + frames m + frames m * 60000 end.
Definition waiting_cost (w : list (nat * Op)) : N := fold_right (fun x n => (cost (snd x) + n)%N) 0%N w.
Definition turn_cost (s : TSt) : N :=
  match s_turn s with Some t => N.of_nat (length (t_todo t)) + (t_deadline t - s_clock s) + 1 | None => 0 end.
Definition measure (s : TSt) : N := waiting_cost (s_waiting s) + turn_cost s.
Lemma take_cost w : forall k x rest, take_nth k w = Some (x, rest) -> waiting_cost w = (cost (snd x) + waiting_cost rest)%N.
Proof.
  induction w as [|y w IH]; intros [|k] x rest E; cbn [take_nth] in E; try discriminate.
  - injection E as <- <-. reflexivity.
  - destruct (take_nth k w) as [[z l]|] eqn:E1; [|discriminate]. injection E as <- <-. cbn [waiting_cost fold_right snd] in *.
    fold (waiting_cost w) (waiting_cost l). rewrite (IH _ _ _ E1). lia.
Qed.
Lemma to_write_len p m : m <> [] -> (N.of_nat (length (to_write p m)) <= 2 + frames m)%N.
Proof.
  intros Ne. unfold to_write. rewrite !app_length, C52_counts_packets. unfold frames.
  assert (Q : N.of_nat ((length m + 63) / 64) = ((N.of_nat (length m) + 63) / 64)%N) by (rewrite Nat2N.inj_div, Nat2N.inj_add; reflexivity).
  rewrite <- Q. destruct p, (Nat.eqb (Nat.land (length m) 63) 0); cbn [length]; lia.
Qed.
Lemma own_less s e s' : Inv s -> own s e = true -> t_step s e = Some s' -> (measure s' < measure s)%N.
Proof.
  intros I. pose proof (i_range s I) as R. pose proof (i_turn s I) as T. unfold measure, turn_cost.
  destruct e as [op|k|k| | |b|b|b]; cbn [own t_step]; try discriminate.
  - intros _. destruct (s_turn s) as [t|] eqn:Ht; [discriminate|]. destruct (take_nth k (s_waiting s)) as [[[i op] rest]|] eqn:Tk; [|discriminate].
    apply take_cost in Tk. intros E. injection E as <-. rewrite Tk. destruct op as [[|b m]|ms]; cbn [give s_waiting s_turn s_clock snd cost]; try lia.
    cbn [t_todo t_deadline]. set (msg := b :: m). assert (Nm : msg <> []) by discriminate. pose proof (to_write_len (s_pending s) msg Nm) as L.
    fold (frames msg). clearbody msg.
    assert (frames msg * s_per s <= frames msg * 60000)%N by (apply N.mul_le_mono_l; lia). lia.
  - destruct (s_turn s) as [t|] eqn:Ht; [|discriminate]. intros _. destruct (N.ltb_spec (s_clock s) (t_deadline t)); [|discriminate].
    intros E. injection E as <-. cbn [s_waiting s_turn s_clock]. lia.
  - intros _. destruct (s_turn s) as [t|] eqn:Ht; [|discriminate]. destruct (t_todo t) as [|p [|p2 rest]] eqn:Etd; intros E; try discriminate; injection E as <-; cbn [end_turn s_waiting s_turn s_clock t_todo t_deadline length]; lia.
  - intros _. destruct (s_turn s) as [t|]; [|discriminate]. intros E. injection E as <-. cbn [end_turn s_waiting s_turn]. lia.
  - intros _. destruct (s_turn s) as [t|]; [|discriminate]. destruct (t_deadline t <=? s_clock s)%N; [|discriminate]. intros E. injection E as <-. cbn [end_turn s_waiting s_turn]. lia.
  - intros _. destruct (s_turn s) as [t|]; [|discriminate]. intros E. injection E as <-. cbn [end_turn s_waiting s_turn]. lia.
Qed.
(** A run of which every step is one that the tasks, the endpoint and the timer do of themselves. *)
Fixpoint own_run (s : TSt) (es : list TEv) : option TSt :=
  match es with
  | [] => Some s
  | e :: tl => if own s e then match t_step s e with Some s' => own_run s' tl | None => None end else None
  end.
(** Whatever the endpoint does, and in whatever order the mutex serves: what was asked is dealt
    with after boundedly many steps and milliseconds. *)
Theorem C98_own_steps_end :
  forall es s, t_run t_new es = Some s -> exists n, forall more s', own_run s more = Some s' -> length more <= n.
Proof.
  intros es s H. pose proof (inv_run es _ _ inv_new H) as I. clear H. exists (N.to_nat (measure s)). intros more. revert s I.
  induction more as [|e more IH]; intros s I s' H; cbn [own_run length] in *; [lia|].
  destruct (own s e) eqn:O; [|discriminate]. destruct (t_step s e) as [s1|] eqn:E1; [|discriminate].
  pose proof (own_less _ _ _ I O E1). specialize (IH _ (inv_step _ _ _ I E1) _ H). lia.
Qed.
Print Assumptions C98_own_steps_end.

(** What has become of what was asked. *)
Definition dealt_with (log : list Happened) (i : nat) (op : Op) : Prop :=
  (exists t, In (HLeft i t) log) \/
  match op with
  | OpSet ms => exists t, In (HSet i ms t) log
  | OpSend m => exists t0 r t, In (HBegan i m t0) log /\ In (HEnded i r t) log
  end.
Definition accounted (s : TSt) : Prop :=
  forall i op t, In (HAsked i op t) (s_log s) ->
    In (i, op) (s_waiting s) \/ dealt_with (s_log s) i op \/
    exists tr t0, s_turn s = Some tr /\ t_who tr = i /\ In (HBegan i (t_msg tr) t0) (s_log s) /\ op = OpSend (t_msg tr).
Lemma dealt_more log h i op : dealt_with log i op -> dealt_with (log ++ h) i op.
Proof.
  intros [(t & H)|H]; [left; exists t; apply in_or_app; auto|right]. destruct op.
  - destruct H as (t0 & r & t & A & B). exists t0, r, t. split; apply in_or_app; auto.
  - destruct H as (t & A). exists t. apply in_or_app; auto.
Qed.
Lemma take_in w : forall k x rest, take_nth k w = Some (x, rest) -> forall y, In y w -> y = x \/ In y rest.
Proof.
  induction w as [|z w IH]; intros [|k] x rest E y Hy; cbn [take_nth] in E; try discriminate.
  - injection E as <- <-. destruct Hy; auto.
  - destruct (take_nth k w) as [[z' l]|] eqn:E1; [|discriminate]. injection E as <- <-. destruct Hy as [<-|Hy]; [right; left; reflexivity|].
    destruct (IH _ _ _ E1 _ Hy); auto. right. right. assumption.
Qed.
Lemma acc_end s t r p w : accounted s -> s_turn s = Some t -> accounted (end_turn s t r p w).
Proof.
  intros A Ht i op t1 H. cbn [end_turn s_log s_waiting s_turn] in *. apply in_app_or in H as [H|[H|[]]]; [|discriminate].
  destruct (A _ _ _ H) as [W|[D|(tr & t0 & E & Ew & B & O)]]; [auto|right; left; apply dealt_more; assumption|].
  right. left. rewrite Ht in E. injection E as <-. subst i op. right. exists t0, r, (s_clock s). split; apply in_or_app; [auto|right; left; reflexivity].
Qed.
Lemma acc_step s e s' : accounted s -> t_step s e = Some s' -> accounted s'.
Proof.
  intros A. destruct e as [op|k|k| | |b|b|b]; cbn [t_step].
  - intros E. injection E as <-. intros i o t H. cbn [s_log s_waiting s_turn] in *. apply in_app_or in H as [H|[H|[]]].
    + destruct (A _ _ _ H) as [W|[D|(tr & t0 & Q & Ew & B & O)]]; [left; apply in_or_app; auto|right; left; apply dealt_more; assumption|].
      right. right. exists tr, t0. repeat split; auto. apply in_or_app; auto.
    + injection H as <- <- <-. left. apply in_or_app. right. left. reflexivity.
  - destruct (take_nth k (s_waiting s)) as [[[j op] rest]|] eqn:Tk; [|discriminate]. intros E. injection E as <-.
    intros i o t H. cbn [log1 set_waiting s_log s_waiting s_turn] in *. apply in_app_or in H as [H|[H|[]]]; [|discriminate].
    destruct (A _ _ _ H) as [W|[D|(tr & t0 & Q & Ew & B & O)]].
    + destruct (take_in _ _ _ _ Tk _ W) as [X|X]; [|auto]. injection X as -> ->. right. left. left. exists (s_clock s). apply in_or_app. right. left. reflexivity.
    + right; left; apply dealt_more; assumption.
    + right. right. exists tr, t0. repeat split; auto. apply in_or_app; auto.
  - destruct (s_turn s) as [t|] eqn:Ht; [discriminate|]. destruct (take_nth k (s_waiting s)) as [[[j op] rest]|] eqn:Tk; [|discriminate].
    intros E. injection E as <-. intros i o t H.
    assert (H0 : In (HAsked i o t) (s_log s)).
    { destruct op as [[|b m]|ms]; cbn [give s_log] in H; apply in_app_or in H as [H|H]; auto; cbn in H; repeat destruct H as [H|H]; try discriminate; contradiction. }
    assert (Lg : exists l, s_log (give s j op rest) = s_log s ++ l) by (destruct op as [[|b m]|ms]; eexists; reflexivity).
    destruct (A _ _ _ H0) as [W|[D|(tr & t0 & Q & _)]]; [|right; left; destruct Lg as [l ->]; apply dealt_more; assumption|congruence].
    destruct (take_in _ _ _ _ Tk _ W) as [X|X]; [|left; destruct op as [[|b m]|ms]; exact X].
    injection X as -> ->. right. destruct op as [[|b m]|ms]; cbn [give s_log s_turn].
    + left. right. exists (s_clock s), TOk, (s_clock s). split; apply in_or_app; right; [left; reflexivity|right; left; reflexivity].
    + right. eexists. exists (s_clock s). split; [reflexivity|]. cbn [t_who t_msg]. repeat split. apply in_or_app; right; left; reflexivity.
    + left. right. exists (s_clock s). apply in_or_app; right; left; reflexivity.
  - destruct (match s_turn s with Some t => (s_clock s <? t_deadline t)%N | None => true end); [|discriminate]. intros E. injection E as <-. exact A.
  - destruct (s_turn s) as [t|] eqn:Ht; [|discriminate]. destruct (t_todo t) as [|p [|p2 rest]]; intros E; try discriminate; injection E as <-.
    + apply acc_end; assumption.
    + intros i o t1 H. cbn [s_log s_waiting s_turn] in *. destruct (A _ _ _ H) as [W|[D|(tr & t0 & Q & Ew & B & O)]]; auto.
      right. right. rewrite Ht in Q. injection Q as <-. eexists. exists t0. split; [reflexivity|]. cbn [t_who t_msg]. auto.
  - destruct (s_turn s) as [t|] eqn:Ht; [|discriminate]. intros E. injection E as <-. apply acc_end; assumption.
  - destruct (s_turn s) as [t|] eqn:Ht; [|discriminate]. destruct (t_deadline t <=? s_clock s)%N; [|discriminate]. intros E. injection E as <-. apply acc_end; assumption.
  - destruct (s_turn s) as [t|] eqn:Ht; [|discriminate]. intros E. injection E as <-. apply acc_end; assumption.
Qed.
Lemma acc_run es : forall s s', accounted s -> t_run s es = Some s' -> accounted s'.
Proof.
  induction es as [|e es IH]; intros s s' A; cbn [t_run]; [intros E; injection E as <-; exact A|].
  destruct (t_step s e) as [s1|] eqn:E1; [|discriminate]. apply IH. exact (acc_step _ _ _ A E1).
Qed.
(** And when nothing more can happen of itself, everything that was asked has been dealt
    with: a setting is made, a send has begun its turn and ended it - unless the task left. *)
Theorem C98_everybody_is_served :
  forall es s, t_run t_new es = Some s -> (forall e, own s e = true -> t_step s e = None) ->
  forall i op t, In (HAsked i op t) (s_log s) -> dealt_with (s_log s) i op.
Proof.
  intros es s H R i op t Hi. assert (A : accounted s) by (refine (acc_run es t_new s _ H); intros ? ? ? []).
  assert (Tn : s_turn s = None).
  { destruct (s_turn s) as [tr|] eqn:Ht; [|reflexivity]. specialize (R (Drop false) eq_refl). cbn [t_step] in R. rewrite Ht in R. discriminate. }
  destruct (A _ _ _ Hi) as [W|[D|(tr & t0 & Q & _)]]; [|exact D|congruence].
  destruct (s_waiting s) as [|[j o] w] eqn:Ew; [destruct W|]. specialize (R (Grant 0) eq_refl). cbn [t_step] in R. rewrite Tn, Ew in R. discriminate.
Qed.
Print Assumptions C98_everybody_is_served.

(** A task that drops its send is not needed for that: also if every send is waited for, there is
    always something that happens of itself - a packet is taken, or time passes until the timer
    runs out. *)
Theorem C98_never_held_for_good :
  forall es s, t_run t_new es = Some s -> s_waiting s <> [] ->
    exists e s', t_step s e = Some s' /\
      match e with Grant _ => s_turn s = None | Tick | TimeUp _ => s_turn s <> None | _ => False end.
Proof.
  intros es s H Ne. pose proof (inv_run es _ _ inv_new H) as I. destruct (s_turn s) as [t|] eqn:Ht.
  - destruct (N.ltb_spec (s_clock s) (t_deadline t)) as [L|L].
    + exists Tick. eexists. cbn [t_step]. rewrite Ht, (proj2 (N.ltb_lt _ _) L). split; [reflexivity|discriminate].
    + exists (TimeUp false). eexists. cbn [t_step]. rewrite Ht, (proj2 (N.leb_le _ _) L). split; [reflexivity|discriminate].
  - destruct (s_waiting s) as [|[i op] w] eqn:Ew; [congruence|]. exists (Grant 0). eexists. cbn [t_step]. rewrite Ht, Ew. cbn [take_nth]. split; reflexivity.
Qed.
Print Assumptions C98_never_held_for_good.

(** ** Each turn was asked for, once *)
(** The tasks that have had their turn, made their setting or left. *)
Definition served (log : list Happened) : list nat :=
  flat_map (fun h => match h with HLeft i _ | HBegan i _ _ | HSet i _ _ => [i] | _ => [] end) log.
Record Once (s : TSt) : Prop := {
  o_nodup : NoDup (map fst (s_waiting s) ++ served (s_log s));
  o_less : Forall (fun i => i < s_next s) (map fst (s_waiting s) ++ served (s_log s));
  o_asked : forall i op, In (i, op) (s_waiting s) -> exists t, In (HAsked i op t) (s_log s);
  o_began : forall i m t, In (HBegan i m t) (s_log s) -> exists t', In (HAsked i (OpSend m) t') (s_log s);
  o_set : forall i ms t, In (HSet i ms t) (s_log s) -> exists t', In (HAsked i (OpSet ms) t') (s_log s)
}.
Lemma take_perm w : forall k x rest, take_nth k w = Some (x, rest) -> Permutation w (x :: rest).
Proof.
  induction w as [|z w IH]; intros [|k] x rest E; cbn [take_nth] in E; try discriminate.
  - injection E as <- <-. reflexivity.
  - destruct (take_nth k w) as [[z' l]|] eqn:E1; [|discriminate]. injection E as <- <-. rewrite (IH _ _ _ E1). apply perm_swap.
Qed.
Lemma once_move s k i op rest l : Once s -> take_nth k (s_waiting s) = Some ((i, op), rest) -> served l = [i] ->
  NoDup (map fst rest ++ served (s_log s ++ l)) /\ Forall (fun j => j < s_next s) (map fst rest ++ served (s_log s ++ l)).
Proof.
  intros O Tk E. apply take_perm in Tk. unfold served at 1 2. rewrite flat_map_app. fold (served (s_log s)) (served l). rewrite E.
  assert (P : Permutation (map fst (s_waiting s) ++ served (s_log s)) (map fst rest ++ served (s_log s) ++ [i])).
  { rewrite Tk. cbn [map fst app]. rewrite app_assoc. apply Permutation_cons_append. }
  split; [exact (Permutation_NoDup P (o_nodup s O))|]. eapply Permutation_Forall; [exact P|exact (o_less s O)].
Qed.
Lemma served_same log h : match h with HAsked _ _ _ | HEnded _ _ _ => True | _ => False end -> served (log ++ [h]) = served log.
Proof. intros H. unfold served. rewrite flat_map_app. destruct h; try contradiction; apply app_nil_r. Qed.
Lemma once_same s s' l : Once s -> s_waiting s' = s_waiting s -> s_next s' = s_next s -> s_log s' = s_log s ++ l ->
  served l = [] -> Forall (fun h => match h with HBegan _ _ _ | HSet _ _ _ => False | _ => True end) l -> Once s'.
Proof.
  intros O Ew En El Es F. destruct O as [O1 O2 O3 O4 O5].
  assert (Sv : served (s_log s ++ l) = served (s_log s)) by (unfold served in *; rewrite flat_map_app, Es; apply app_nil_r).
  constructor; rewrite ?Ew, ?En, ?El, ?Sv; auto.
  - intros i op H. destruct (O3 _ _ H) as [t Q]. exists t. apply in_or_app. auto.
  - intros i m t H. apply in_app_or in H as [H|H]; [destruct (O4 _ _ _ H) as [t' Q]; exists t'; apply in_or_app; auto|].
    exfalso. exact (proj1 (Forall_forall _ _) F _ H).
  - intros i m t H. apply in_app_or in H as [H|H]; [destruct (O5 _ _ _ H) as [t' Q]; exists t'; apply in_or_app; auto|].
    exfalso. exact (proj1 (Forall_forall _ _) F _ H).
Qed.
Lemma once_step s e s' : Once s -> t_step s e = Some s' -> Once s'.
Proof.
  intros O. assert (End : forall t r p w, Once (end_turn s t r p w)).
  { intros t r p w. apply (once_same s _ [HEnded (t_who t) r (s_clock s)] O); try reflexivity. constructor; [exact Logic.I|constructor]. }
  destruct e as [op|k|k| | |b|b|b]; cbn [t_step].
  - intros E. injection E as <-. destruct O as [O1 O2 O3 O4 O5].
    constructor; cbn [s_waiting s_next s_log]; rewrite ?served_same by exact Logic.I.
    + rewrite map_app, <- app_assoc. cbn [map fst app]. apply NoDup_Add with (a := s_next s) (l := map fst (s_waiting s) ++ served (s_log s)); [apply Add_app|].
      split; [exact O1|]. intros H. pose proof (proj1 (Forall_forall _ _) O2 _ H). cbn in *. lia.
    + rewrite map_app, <- app_assoc. cbn [map fst app]. apply Forall_app in O2 as [A B]. apply Forall_app. split; [|constructor; [lia|]]; (eapply Forall_impl; [|eassumption]; cbn; intros; lia).
    + intros i o H. apply in_app_or in H as [H|[H|[]]].
      * destruct (O3 _ _ H) as [t Q]. exists t. apply in_or_app; auto.
      * injection H as <- <-. exists (s_clock s). apply in_or_app. right. left. reflexivity.
    + intros i m t H. apply in_app_or in H as [H|[H|[]]]; [|discriminate]. destruct (O4 _ _ _ H) as [t' Q]. exists t'. apply in_or_app; auto.
    + intros i m t H. apply in_app_or in H as [H|[H|[]]]; [|discriminate]. destruct (O5 _ _ _ H) as [t' Q]. exists t'. apply in_or_app; auto.
  - destruct (take_nth k (s_waiting s)) as [[[i op] rest]|] eqn:Tk; [|discriminate]. intros E. injection E as <-.
    destruct (once_move s k i op rest [HLeft i (s_clock s)] O Tk eq_refl) as [M1 M2]. destruct O as [O1 O2 O3 O4 O5].
    constructor; cbn [log1 set_waiting s_waiting s_next s_log]; auto.
    + intros j o H. destruct (O3 j o) as [t Q]; [|exists t; apply in_or_app; auto]. apply (Permutation_in _ (Permutation_sym (take_perm _ _ _ _ Tk))). right. exact H.
    + intros j m t H. apply in_app_or in H as [H|[H|[]]]; [|discriminate]. destruct (O4 _ _ _ H) as [t' Q]. exists t'. apply in_or_app; auto.
    + intros j m t H. apply in_app_or in H as [H|[H|[]]]; [|discriminate]. destruct (O5 _ _ _ H) as [t' Q]. exists t'. apply in_or_app; auto.
  - destruct (s_turn s) as [t|] eqn:Ht; [discriminate|]. destruct (take_nth k (s_waiting s)) as [[[i op] rest]|] eqn:Tk; [|discriminate].
    intros E. injection E as <-.
    assert (Ask0 : exists t, In (HAsked i op t) (s_log s)).
    { apply (o_asked s O). apply (Permutation_in _ (Permutation_sym (take_perm _ _ _ _ Tk))). left. reflexivity. }
    assert (L : exists l, s_log (give s i op rest) = s_log s ++ l /\ served l = [i] /\ s_waiting (give s i op rest) = rest /\ s_next (give s i op rest) = s_next s /\
      Forall (fun h => match h with HBegan j m _ => j = i /\ op = OpSend m | HSet j ms _ => j = i /\ op = OpSet ms | _ => True end) l).
    { destruct op as [[|b m]|ms]; eexists; (split; [reflexivity|]); repeat split; repeat constructor. }
    destruct L as (l & El & Sl & Ew & En & F). destruct (once_move s k i op rest l O Tk Sl) as [M1 M2]. destruct O as [O1 O2 O3 O4 O5].
    constructor; rewrite ?El, ?Ew, ?En; auto.
    + intros j o H. destruct (O3 j o) as [t Q]; [|exists t; apply in_or_app; auto]. apply (Permutation_in _ (Permutation_sym (take_perm _ _ _ _ Tk))). right. exact H.
    + intros j m t H. apply in_app_or in H as [H|H]; [destruct (O4 _ _ _ H) as [t' Q]; exists t'; apply in_or_app; auto|].
      pose proof (proj1 (Forall_forall _ _) F _ H) as [-> ->]. destruct Ask0 as [t' Q]. exists t'. apply in_or_app. auto.
    + intros j m t H. apply in_app_or in H as [H|H]; [destruct (O5 _ _ _ H) as [t' Q]; exists t'; apply in_or_app; auto|].
      pose proof (proj1 (Forall_forall _ _) F _ H) as [-> ->]. destruct Ask0 as [t' Q]. exists t'. apply in_or_app. auto.
  - destruct (match s_turn s with Some t => (s_clock s <? t_deadline t)%N | None => true end); [|discriminate]. intros E. injection E as <-.
    apply (once_same s _ [] O); try reflexivity; [cbn; rewrite app_nil_r; reflexivity|constructor].
  - destruct (s_turn s) as [t|] eqn:Ht; [|discriminate]. destruct (t_todo t) as [|p [|p2 rest]]; intros E; try discriminate; injection E as <-; [apply End|].
    apply (once_same s _ [] O); try reflexivity; [cbn; rewrite app_nil_r; reflexivity|constructor].
  - destruct (s_turn s); [|discriminate]. intros E. injection E as <-. apply End.
  - destruct (s_turn s) as [t|]; [|discriminate]. destruct (t_deadline t <=? s_clock s)%N; [|discriminate]. intros E. injection E as <-. apply End.
  - destruct (s_turn s); [|discriminate]. intros E. injection E as <-. apply End.
Qed.
Lemma once_run es : forall s s', Once s -> t_run s es = Some s' -> Once s'.
Proof.
  induction es as [|e es IH]; intros s s' A; cbn [t_run]; [intros E; injection E as <-; exact A|].
  destruct (t_step s e) as [s1|] eqn:E1; [|discriminate]. apply IH. exact (once_step _ _ _ A E1).
Qed.
(** No task has more than one turn, and none whose send was not asked for, with this message;
    and no setting is made but one that was asked for. *)
Theorem C98_each_asked_once :
  forall es s, t_run t_new es = Some s ->
    NoDup (served (s_log s)) /\
    (forall i m t, In (HBegan i m t) (s_log s) -> exists t', In (HAsked i (OpSend m) t') (s_log s)) /\
    (forall i ms t, In (HSet i ms t) (s_log s) -> exists t', In (HAsked i (OpSet ms) t') (s_log s)).
Proof.
  intros es s H. assert (O : Once s).
  { apply (once_run es t_new s); [|exact H]. constructor; cbn; try constructor; intros; contradiction. }
  split; [|split; [exact (o_began s O)|exact (o_set s O)]]. pose proof (o_nodup s O) as N.
  induction (map fst (s_waiting s)) as [|x l IH]; [exact N|]. inversion N; subst. apply IH; assumption.
Qed.
Print Assumptions C98_each_asked_once.

(** ** An endpoint that keeps pace *)
(** Histories in which no write takes more than [d] ms; the number is how long the present one
    has taken. *)
Inductive keeps_pace (d : N) : TSt -> N -> Prop :=
  | kp_new : keeps_pace d t_new 0
  | kp_step s n e s' : keeps_pace d s n -> t_step s e = Some s' ->
      (e = Tick -> s_turn s <> None -> n + 1 <= d)%N ->
      keeps_pace d s' (match e with Tick => n + 1 | Written | Grant _ => 0 | _ => n end)%N.
Lemma log_grows s e s' : t_step s e = Some s' -> exists l, s_log s' = s_log s ++ l.
Proof.
  destruct e as [op|k|k| | |b|b|b]; cbn [t_step].
  - intros E. injection E as <-. eexists. reflexivity.
  - destruct (take_nth k (s_waiting s)) as [[[i op] rest]|]; [|discriminate]. intros E. injection E as <-. eexists. reflexivity.
  - destruct (s_turn s); [discriminate|]. destruct (take_nth k (s_waiting s)) as [[[i op] rest]|]; [|discriminate]. intros E. injection E as <-.
    destruct op as [[|b m]|ms]; eexists; reflexivity.
  - destruct (match s_turn s with Some t => (s_clock s <? t_deadline t)%N | None => true end); [|discriminate]. intros E. injection E as <-. exists []. cbn. symmetry. apply app_nil_r.
  - destruct (s_turn s) as [t|]; [|discriminate]. destruct (t_todo t) as [|p [|p2 rest]]; intros E; try discriminate; injection E as <-; [eexists; reflexivity|].
    exists []. cbn. symmetry. apply app_nil_r.
  - destruct (s_turn s); [|discriminate]. intros E. injection E as <-. eexists. reflexivity.
  - destruct (s_turn s) as [t|]; [|discriminate]. destruct (t_deadline t <=? s_clock s)%N; [|discriminate]. intros E. injection E as <-. eexists. reflexivity.
  - destruct (s_turn s); [|discriminate]. intros E. injection E as <-. eexists. reflexivity.
Qed.
Lemma pace_inv d s n : keeps_pace d s n -> Inv s /\
  ((forall pre i m t post, s_log s = pre ++ HBegan i m t :: post -> (3 * d < in_force pre)%N) ->
   (forall i t, ~ In (HEnded i TTimeout t) (s_log s)) /\
   match s_turn s with
   | Some t => (n <= d /\ s_clock s + (d - n) + d * (N.of_nat (length (t_todo t)) - 1) + 1 <= t_deadline t)%N
   | None => True
   end).
Proof.
  induction 1 as [|s n e s' K [I IH] St Pc]; [split; [exact inv_new|]; intros _; split; [intros i t []|exact Logic.I]|].
  split; [exact (inv_step _ _ _ I St)|]. intros B. destruct (log_grows _ _ _ St) as [l El].
  assert (B0 : forall pre i m t post, s_log s = pre ++ HBegan i m t :: post -> (3 * d < in_force pre)%N).
  { intros pre i m t post E. apply (B pre i m t (post ++ l)). rewrite El, E, <- app_assoc. reflexivity. }
  destruct (IH B0) as [No J]. clear IH B0 K.
  assert (End : forall t r p w, r <> TTimeout -> (forall i t1, ~ In (HEnded i TTimeout t1) (s_log (end_turn s t r p w)))).
  { intros t r p w Hr i t1 H. cbn [end_turn s_log] in H. apply in_app_or in H as [H|[H|[]]]; [exact (No _ _ H)|]. congruence. }
  assert (One : forall h, (forall i t1, h <> HEnded i TTimeout t1) -> forall i t1, ~ In (HEnded i TTimeout t1) (s_log s ++ [h])).
  { intros h Hh i t1 H. apply in_app_or in H as [H|[H|[]]]; [exact (No _ _ H)|]. exact (Hh _ _ H). }
  destruct e as [op|k|k| | |b|b|b]; cbn [t_step] in St.
  - injection St as <-. cbn [s_log s_turn s_clock]. split; [apply One; discriminate|exact J].
  - destruct (take_nth k (s_waiting s)) as [[[i op] rest]|]; [|discriminate]. injection St as <-. cbn. split; [apply One; discriminate|exact J].
  - destruct (s_turn s); [discriminate|]. destruct (take_nth k (s_waiting s)) as [[[i op] rest]|]; [|discriminate]. injection St as <-.
    destruct op as [[|b m]|ms]; cbn [give s_log s_turn s_clock].
    + split; [|exact Logic.I]. intros j t1 H. apply in_app_or in H as [H|[H|[H|[]]]]; [exact (No _ _ H)|discriminate|discriminate].
    + split; [apply One; discriminate|]. cbn [t_todo t_deadline]. cbn [give s_log] in B, El. specialize (B (s_log s) i (b :: m) (s_clock s) [] eq_refl).
      rewrite <- (i_per s I) in B. set (msg := b :: m) in *. assert (Nm : msg <> []) by discriminate. pose proof (to_write_len (s_pending s) msg Nm) as L.
      fold (frames msg). assert (F1 : (1 <= frames msg)%N).
      { unfold frames. apply N.div_le_lower_bound; [discriminate|]. unfold msg. cbn [length]. lia. }
      clearbody msg. split; [lia|]. rewrite N.sub_0_r.
      assert (X : (d * (N.of_nat (length (to_write (s_pending s) msg)) - 1) <= d * (frames msg + 1))%N) by (apply N.mul_le_mono_l; lia).
      assert (Y : (frames msg * (3 * d + 1) <= frames msg * s_per s)%N) by (apply N.mul_le_mono_l; lia).
      assert (Z : (2 * d * 1 <= 2 * d * frames msg)%N) by (apply N.mul_le_mono_l; lia). lia.
    + split; [apply One; discriminate|exact Logic.I].
  - destruct (match s_turn s with Some t => (s_clock s <? t_deadline t)%N | None => true end) eqn:G; [|discriminate]. injection St as <-.
    cbn [s_log s_turn s_clock]. split; [exact No|]. destruct (s_turn s) as [t|]; [|exact Logic.I]. specialize (Pc eq_refl ltac:(discriminate)). lia.
  - destruct (s_turn s) as [t|]; [|discriminate]. destruct (t_todo t) as [|p [|p2 rest]] eqn:Etd; try discriminate; injection St as <-; [split; [apply End; discriminate|exact Logic.I]|].
    cbn [s_log s_turn s_clock t_todo t_deadline]. split; [exact No|]. cbn [length] in *. split; [lia|].
    assert (d * (N.of_nat (S (S (length rest))) - 1) = d + d * (N.of_nat (S (length rest)) - 1))%N by (replace (N.of_nat (S (S (length rest))) - 1)%N with (1 + (N.of_nat (S (length rest)) - 1))%N by lia; lia).
    lia.
  - destruct (s_turn s); [|discriminate]. injection St as <-. split; [apply End; discriminate|exact Logic.I].
  - destruct (s_turn s) as [t|]; [|discriminate]. destruct (N.leb_spec (t_deadline t) (s_clock s)); [|discriminate].
    destruct J as [_ J]. set (x := (d * _)%N) in J. clearbody x. lia.
  - destruct (s_turn s); [|discriminate]. injection St as <-. split; [apply End; discriminate|exact Logic.I].
Qed.
(** If no write takes more than [d] ms, and every turn begins with more than three times that
    allowed per packet, no send of any task is timed out, however many tasks there are, and
    whatever was interrupted otherwise. *)
Theorem C98_keeping_pace_suffices :
  forall d s n, keeps_pace d s n ->
    (forall pre i m t post, s_log s = pre ++ HBegan i m t :: post -> (3 * d < in_force pre)%N) ->
    forall i t, ~ In (HEnded i TTimeout t) (s_log s).
Proof. intros d s n K B. exact (proj1 (proj2 (pace_inv d s n K) B)). Qed.
Print Assumptions C98_keeping_pace_suffices.

(** Two tasks send at the same time, 120 and 64 bytes; a third sets the time to 0 ms, that is 1 ms,
    per packet while the first is being sent.  The first has its 4 ms; it is given up after them.
    The second, which has waited all that time, then has 1 ms of its own, and is sent in it. *)
Example C98_ex :
  let a := repeat 1%N 120 in let b := repeat 2%N 64 in
  let es := [Ask (OpSend a); Ask (OpSend b); Grant 0; Tick; Written; Ask (OpSet 0); Tick; Tick; Tick; TimeUp true;
             Grant 1; Grant 0; Written; Written; Tick; Written] in
  match t_run t_new es with
  | Some s =>
    s_log s = [HAsked 0 (OpSend a) 0; HAsked 1 (OpSend b) 0; HBegan 0 a 0; HAsked 2 (OpSet 0) 1; HEnded 0 TTimeout 4;
               HSet 2 0 4; HBegan 1 b 4; HEnded 1 TOk 5] /\
    fst (transfers [] (s_wire s)) = [a; []; b]
  | None => False
  end.
Proof. vm_compute. auto. Qed.

(** A history that keeps pace at 1 ms per write, with 4 ms allowed per packet: after a send that
    was dropped, 64 bytes take three packets, and 3 of the 4 ms. *)
Definition pace_es : list TEv :=
  [Ask (OpSet 4); Grant 0; Ask (OpSend (repeat 1%N 70)); Ask (OpSend (repeat 2%N 64)); Grant 0; Tick; Written; Drop false;
   Grant 0; Tick; Written; Tick; Written; Tick; Written].
Example C98_pace_ex :
  exists s n, keeps_pace 1 s n /\ t_run t_new pace_es = Some s /\
    (forall pre i m t post, s_log s = pre ++ HBegan i m t :: post -> (3 * 1 < in_force pre)%N) /\
    In (HEnded 2 TOk 4) (s_log s).
Proof.
  assert (G : forall es s n s', keeps_pace 1 s n -> t_run s es = Some s' ->
    (fix ok s n es := match es with [] => true | e :: tl =>
       match e, s_turn s with Tick, Some _ => (n + 1 <=? 1)%N | _, _ => true end &&
       match t_step s e with Some s1 => ok s1 (match e with Tick => n + 1 | Written | Grant _ => 0 | _ => n end)%N tl | None => false end end) s n es = true ->
    exists n', keeps_pace 1 s' n').
  { induction es as [|e es IH]; intros s n s' K R O; cbn [t_run] in R; [injection R as <-; eauto|].
    destruct (t_step s e) as [s1|] eqn:E; [|discriminate]. apply andb_true_iff in O as [O1 O2]. refine (IH s1 _ s' _ R O2). apply (kp_step 1 s n e s1 K E).
    intros -> Ht. destruct (s_turn s); [|congruence]. apply N.leb_le. exact O1. }
  destruct (t_run t_new pace_es) as [s|] eqn:R; [|vm_compute in R; discriminate].
  destruct (G pace_es t_new 0%N s (kp_new 1) R ltac:(vm_compute; reflexivity)) as [n K]. exists s, n. split; [exact K|]. split; [reflexivity|].
  assert (El : s_log s = match t_run t_new pace_es with Some s => s_log s | None => [] end) by (rewrite R; reflexivity).
  match type of El with _ = ?r => let v := eval vm_compute in r in replace r with v in El by (vm_compute; reflexivity) end. rewrite El. split.
  - intros pre i m t post E. 
    repeat (destruct pre as [|h pre]; [first [discriminate E|vm_compute; reflexivity]|injection E as <- E]). destruct pre; discriminate E.
  - do 6 right. cbn. tauto.
Qed.
