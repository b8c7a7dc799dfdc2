(** Proofs about a shared sender. *)
From Coq Require Import NArith List Bool Arith Lia.
From Verif Require Import UsbModel UsbSpec UsbProof UsbThm TurnModel TurnSpec.
Import ListNotations.

(** ** The log *)
Lemma setting_app a : forall cur b, setting cur (a ++ b) = setting (setting cur a) b.
Proof. induction a as [|h a IH]; intros cur b; [reflexivity|]. destruct h; cbn [app setting]; apply IH. Qed.
Lemma setting_asking c : forall cur, only_asking c -> setting cur c = cur.
Proof.
  induction c as [|h c IH]; intros cur F; [reflexivity|]. inversion F; subst. destruct h; cbn [setting]; try contradiction; apply IH; assumption.
Qed.
Lemma clamp_is ms : clamp_timeout ms = (if ms <? 1 then 1 else if 60000 <? ms then 60000 else ms)%N.
Proof. unfold clamp_timeout. destruct (N.ltb_spec ms 1), (N.ltb_spec 60000 ms); lia. Qed.

Fixpoint last_msg (cur : list N) (log : list Happened) : list N :=
  match log with [] => cur | HBegan _ m _ :: tl => last_msg m tl | _ :: tl => last_msg cur tl end.
Lemma turns_app a : forall cur b, turns cur (a ++ b) = turns cur a ++ turns (last_msg cur a) b.
Proof. induction a as [|h a IH]; intros cur b; [reflexivity|]. destruct h; cbn [app turns last_msg]; rewrite IH; reflexivity. Qed.
Lemma last_asking c : forall cur, only_asking c -> last_msg cur c = cur.
Proof.
  induction c as [|h c IH]; intros cur F; [reflexivity|]. inversion F; subst. destruct h; cbn [last_msg]; try contradiction; apply IH; assumption.
Qed.
Lemma turns_asking c : forall cur, only_asking c -> turns cur c = [].
Proof.
  induction c as [|h c IH]; intros cur F; [reflexivity|]. inversion F; subst. destruct h; cbn [turns]; try contradiction; apply IH; assumption.
Qed.

(** ** The packets of a turn *)
Lemma chunks_stop k : forall chs x o w r, (forall p, write1 p o = (w p, Some r)) ->
  write_chunks chs (repeat WDone k ++ o :: x) =
  match skipn k chs with
  | p :: _ => (firstn k chs ++ w p, Some r, x)
  | [] => (chs, None, repeat WDone (k - length chs) ++ o :: x)
  end.
Proof.
  induction k as [|k IH]; intros chs x o w r Ho.
  - cbn [repeat app skipn firstn]. destruct chs as [|c chs]; cbn [write_chunks hd]; [reflexivity|]. rewrite Ho. reflexivity.
  - destruct chs as [|c chs]; [reflexivity|]. cbn [repeat app skipn firstn write_chunks hd write1 List.tl length Nat.sub].
    rewrite (IH chs x o w r Ho). destruct (skipn k chs); reflexivity.
Qed.
Definition stop_at (o : WRes) (w : packet -> list packet) (r : SendRes) : Prop := forall p, write1 p o = (w p, Some r).
Lemma middle_stop out k o w r p tl : stop_at o w r ->
  let fin := if Nat.eqb (Nat.land (length out) 63) 0 then [[]] else [] in
  skipn k (chunks 64 out ++ fin) = p :: tl ->
  (let '(w1, r1, os1) := write_chunks (chunks 64 out) (repeat WDone k ++ [o]) in
   match r1 with
   | Some r => (w1, true, r)
   | None =>
     if Nat.eqb (Nat.land (length out) 63) 0 then
       let (w2, r2) := write1 [] (hd WDone os1) in
       match r2 with Some r => (w1 ++ w2, true, r) | None => (w1 ++ w2, false, SOk) end
     else (w1, false, SOk)
   end) = (firstn k (chunks 64 out ++ fin) ++ w p, true, r).
Proof.
  intros Ho fin E. rewrite (chunks_stop k (chunks 64 out) [] o w r Ho).
  destruct (skipn k (chunks 64 out)) as [|q qs] eqn:Q.
  - assert (L : length (chunks 64 out) <= k).
    { pose proof (skipn_length k (chunks 64 out)) as L. rewrite Q in L. cbn in L. lia. }
    rewrite skipn_app, Q in E. cbn [app] in E. rewrite firstn_app, firstn_all2 by exact L.
    unfold fin in *. destruct (Nat.eqb (Nat.land (length out) 63) 0).
    + destruct (k - length (chunks 64 out)) as [|j]; cbn [skipn] in E; [|destruct j; discriminate].
      injection E as <- <-. cbn [repeat app hd firstn]. rewrite Ho, app_nil_r. reflexivity.
    + destruct (k - length (chunks 64 out)); discriminate.
  - rewrite skipn_app, Q in E. injection E as <- _.
    assert (L : k <= length (chunks 64 out)).
    { destruct (Nat.le_gt_cases k (length (chunks 64 out))); [assumption|]. rewrite skipn_all2 in Q by lia. discriminate. }
    rewrite firstn_app. replace (k - length (chunks 64 out)) with 0 by lia. cbn [firstn]. rewrite app_nil_r. reflexivity.
Qed.
Lemma send_stop out pending k o w r p tl : out <> [] -> stop_at o w r -> skipn k (to_write pending out) = p :: tl ->
  send_all out pending (repeat WDone k ++ [o]) = (firstn k (to_write pending out) ++ w p, true, r).
Proof.
  intros Ne Ho E. unfold send_all. destruct out as [|b out]; [congruence|]. set (m := b :: out) in *.
  unfold to_write in *. destruct pending.
  - destruct k as [|k]; cbn [app repeat hd List.tl skipn firstn] in *.
    + rewrite Ho. injection E as <- _. reflexivity.
    + cbn [write1]. pose proof (middle_stop m k o w r p tl Ho E) as M. cbn zeta in M.
      destruct (write_chunks (chunks 64 m) (repeat WDone k ++ [o])) as [[w1 r1] os1].
      destruct r1 as [r1|].
      * injection M as -> ->. reflexivity.
      * destruct (Nat.eqb (Nat.land (length m) 63) 0); [|discriminate].
        destruct (write1 [] (hd WDone os1)) as [w2 [r2|]]; [|discriminate]. injection M as M1 ->. cbn [app]. rewrite M1. reflexivity.
  - cbn [app] in *. pose proof (middle_stop m k o w r p tl Ho E) as M. cbn zeta in M.
    destruct (write_chunks (chunks 64 m) (repeat WDone k ++ [o])) as [[w1 r1] os1].
    destruct r1 as [r1|]; [exact M|]. destruct (Nat.eqb (Nat.land (length m) 63) 0); [|exact M].
    destruct (write1 [] (hd WDone os1)) as [w2 [r2|]]; exact M.
Qed.
Lemma send_done out pending : out <> [] -> send_all out pending [] = (to_write pending out, false, SOk).
Proof.
  intros Ne. unfold send_all, to_write. destruct out as [|b out]; [congruence|]. set (m := b :: out).
  destruct pending; cbn [hd write1 List.tl]; rewrite write_chunks_done; destruct (Nat.eqb (Nat.land (length m) 63) 0); cbn [hd write1 app]; rewrite ?app_nil_r; reflexivity.
Qed.
Lemma send_seq_app a : forall p b,
  send_seq p (a ++ b) = let '(w, p', rs) := send_seq p a in let '(w', p'', rs') := send_seq p' b in (w ++ w', p'', rs ++ rs').
Proof.
  induction a as [|[out os] a IH]; intros p b; cbn [app send_seq].
  - destruct (send_seq p b) as [[w p'] rs]. reflexivity.
  - destruct (send_all out p os) as [[w p'] r]. rewrite IH. destruct (send_seq p' a) as [[w1 p1] rs1]. destruct (send_seq p1 b) as [[w2 p2] rs2].
    rewrite app_assoc. reflexivity.
Qed.
Lemma send_seq_len a : forall p, length (snd (send_seq p a)) = length a.
Proof.
  induction a as [|[out os] a IH]; intros p; cbn [send_seq]; [reflexivity|]. destruct (send_all out p os) as [[w p'] r].
  specialize (IH p'). destruct (send_seq p' a) as [[w1 p1] rs1]. cbn [snd length] in *. rewrite IH. reflexivity.
Qed.
Lemma combine_snoc A B (x : list A) : forall (y : list B) a b, length x = length y -> combine (x ++ [a]) (y ++ [b]) = combine x y ++ [(a, b)].
Proof. induction x as [|u x IH]; intros [|v y] a b L; try discriminate; [reflexivity|]. cbn. rewrite IH; [reflexivity|]. cbn in L. lia. Qed.
Lemma to_write_some pending out : out <> [] -> to_write pending out <> [].
Proof.
  intros Ne. unfold to_write. destruct out as [|b out]; [congruence|]. destruct pending; [discriminate|].
  unfold chunks. cbn [length chunks_fuel app]. discriminate.
Qed.

(** ** The invariant *)
(** Every send that ended had its turn, with nobody else in between, and in the time of that turn. *)
Definition ended_well (log : list Happened) : Prop :=
  forall pre post i r t, log = pre ++ HEnded i r t :: post ->
  exists before m t0 between,
    pre = before ++ HBegan i m t0 :: between /\ only_asking between /\
    (t0 <= t <= t0 + frames m * in_force before)%N /\ (r = TTimeout -> t = t0 + frames m * in_force before)%N.
Lemma ended_more log h : ended_well log -> match h with HEnded _ _ _ => False | _ => True end -> ended_well (log ++ [h]).
Proof.
  intros W Hh pre post i r t E. destruct post as [|x post] using rev_ind.
  - apply app_inj_tail in E as [_ ->]. contradiction.
  - clear IHpost. rewrite app_comm_cons, app_assoc in E. apply app_inj_tail in E as [E _]. exact (W _ _ _ _ _ E).
Qed.
Lemma ended_one before i m t0 between r t : ended_well (before ++ HBegan i m t0 :: between) -> only_asking between ->
  (t0 <= t <= t0 + frames m * in_force before)%N -> (r = TTimeout -> t = t0 + frames m * in_force before)%N ->
  ended_well ((before ++ HBegan i m t0 :: between) ++ [HEnded i r t]).
Proof.
  intros W A L T pre post i' r' t' E. destruct post as [|x post] using rev_ind.
  - apply app_inj_tail in E as [<- E]. injection E as -> -> ->. exists before, m, t0, between. auto.
  - clear IHpost. rewrite app_comm_cons, app_assoc in E. apply app_inj_tail in E as [E _]. exact (W _ _ _ _ _ E).
Qed.

(** What has gone over the wire is what sends one after the other put there. *)
Record Inv (s : TSt) : Prop := {
  i_per : s_per s = in_force (s_log s);
  i_range : (1 <= s_per s <= 60000)%N;
  i_ended : ended_well (s_log s);
  i_times : Forall (fun h => (at_time h <= s_clock s)%N) (s_log s);
  i_turn : match s_turn s with
           | None => True
           | Some t => exists before t0 between,
               s_log s = before ++ HBegan (t_who t) (t_msg t) t0 :: between /\ only_asking between /\
               (t_deadline t = t0 + frames (t_msg t) * in_force before)%N /\ (t0 <= s_clock s <= t_deadline t)%N
           end;
  i_wire : exists sends w0 p0 rs,
             send_seq false sends = (w0, p0, rs) /\
             combine (map fst sends) rs = map (fun x => (fst x, outcome (snd x))) (sends_of (s_log s)) /\
             match s_turn s with
             | None => s_wire s = w0 /\ s_pending s = p0
             | Some t => exists k, s_wire s = w0 ++ firstn k (to_write p0 (t_msg t)) /\
                 t_todo t = skipn k (to_write p0 (t_msg t)) /\ k <= length (to_write p0 (t_msg t)) /\
                 t_todo t <> [] /\ t_msg t <> [] /\ s_pending s = true
             end
}.
Lemma inv_new : Inv t_new.
Proof.
  constructor; cbn; try reflexivity; try lia; auto.
  - intros [|h pre] post i r t E; discriminate.
  - exists [], [], false, []. cbn. auto.
Qed.

(** Ending a turn. *)
Lemma inv_end s t r o w : Inv s -> s_turn s = Some t ->
  (r <> TOk /\ stop_at o w (outcome r)) ->
  (r = TTimeout -> (t_deadline t <= s_clock s)%N) ->
  Inv (end_turn s t r (s_pending s) (w (hd [] (t_todo t)))).
Proof.
  intros I Ht [Hr Ho] HT. pose proof (i_turn s I) as T. rewrite Ht in T. destruct T as (before & t0 & between & E & A & D & L).
  destruct (i_wire s I) as (sends & w0 & p0 & rs & Es & Ec & X). rewrite Ht in X. destruct X as (k & Ew & Et & Lk & Ne & Nm & Ep).
  pose proof (i_ended s I) as W. pose proof (i_times s I) as Ti. pose proof (i_per s I) as P. pose proof (i_range s I) as R.
  constructor; cbn [end_turn s_clock s_waiting s_pending s_per s_turn s_next s_wire s_log].
  - rewrite P. unfold in_force. rewrite setting_app. reflexivity.
  - exact R.
  - rewrite E in W |- *. apply ended_one; auto.
    + destruct L as [L1 L2]. split; [exact L1|]. rewrite <- D. exact L2.
    + intros Q. specialize (HT Q). lia.
  - apply Forall_app. split; [exact Ti|]. constructor; [cbn; lia|constructor].
  - exact Logic.I.
  - destruct (t_todo t) as [|p tl] eqn:Etd; [congruence|]. cbn [hd].
    pose proof (send_stop (t_msg t) p0 k o w (outcome r) p tl Nm Ho (eq_sym Et)) as S1.
    exists (sends ++ [(t_msg t, repeat WDone k ++ [o])]), (w0 ++ firstn k (to_write p0 (t_msg t)) ++ w p), true, (rs ++ [outcome r]).
    split; [|split; [|split]].
    + rewrite send_seq_app, Es. cbn [send_seq]. rewrite S1, app_nil_r. reflexivity.
    + rewrite map_app. cbn [map fst]. rewrite combine_snoc.
      2: { rewrite map_length. pose proof (send_seq_len sends false) as Q. rewrite Es in Q. cbn in Q. lia. }
      rewrite Ec. unfold sends_of. rewrite turns_app, map_app. cbn [turns map fst snd]. f_equal.
      rewrite E. clear -A. assert (Q : last_msg [] (before ++ HBegan (t_who t) (t_msg t) t0 :: between) = t_msg t).
      { generalize (@nil N). induction before as [|h b IH]; intros cur; [cbn; apply last_asking; exact A|]. destruct h; cbn [app last_msg]; apply IH. }
      rewrite Q. reflexivity.
    + rewrite Ew, <- app_assoc. reflexivity.
    + exact Ep.
Qed.
Lemma last_turn before i m t0 between : only_asking between -> last_msg [] (before ++ HBegan i m t0 :: between) = m.
Proof.
  intros A. generalize (@nil N). induction before as [|h b IH]; intros cur; [cbn; apply last_asking; exact A|]. destruct h; cbn [app last_msg]; apply IH.
Qed.
Lemma skipn_cons A (l : list A) k p tl : skipn k l = p :: tl -> firstn (S k) l = firstn k l ++ [p] /\ skipn (S k) l = tl /\ S k <= length l.
Proof.
  revert l. induction k as [|k IH]; intros [|x l] E; try discriminate.
  - cbn in *. injection E as -> ->. repeat split. lia.
  - cbn [skipn] in E. destruct (IH _ E) as (A1 & A2 & A3). cbn [firstn skipn length app] in *. rewrite A1. repeat split; [exact A2|lia].
Qed.
Lemma inv_step s e s' : Inv s -> t_step s e = Some s' -> Inv s'.
Proof.
  intros I. pose proof (i_per s I) as P. pose proof (i_range s I) as R. pose proof (i_ended s I) as W. pose proof (i_times s I) as Ti.
  pose proof (i_turn s I) as T. pose proof (i_wire s I) as Wi.
  assert (Quiet : forall h, match h with HAsked _ _ t | HLeft _ t => t = s_clock s | _ => False end ->
    in_force (s_log s ++ [h]) = in_force (s_log s) /\ sends_of (s_log s ++ [h]) = sends_of (s_log s) /\
    ended_well (s_log s ++ [h]) /\ Forall (fun h => (at_time h <= s_clock s)%N) (s_log s ++ [h]) /\
    match s_turn s with
    | None => True
    | Some t => exists before t0 between,
        s_log s ++ [h] = before ++ HBegan (t_who t) (t_msg t) t0 :: between /\ only_asking between /\
        (t_deadline t = t0 + frames (t_msg t) * in_force before)%N /\ (t0 <= s_clock s <= t_deadline t)%N
    end).
  { intros h Hh. split; [|split; [|split; [|split]]].
    - unfold in_force. rewrite setting_app. destruct h; try contradiction; reflexivity.
    - unfold sends_of. rewrite turns_app. destruct h; try contradiction; cbn [turns]; apply app_nil_r.
    - apply ended_more; [exact W|]. destruct h; try contradiction; exact Logic.I.
    - apply Forall_app. split; [exact Ti|]. constructor; [|constructor]. destruct h; try contradiction; cbn; lia.
    - destruct (s_turn s) as [t|]; [|exact Logic.I]. destruct T as (b & t0 & c & E & A & D & L). exists b, t0, (c ++ [h]).
      rewrite E, <- app_assoc. repeat split; auto; try lia. apply Forall_app. split; [exact A|]. constructor; [|constructor].
      destruct h; try contradiction; exact Logic.I. }
  destruct e as [op|k|k| | |b|b|b]; cbn [t_step].
  - intros E. injection E as <-. destruct (Quiet (HAsked (s_next s) op (s_clock s)) eq_refl) as (Q1 & Q2 & Q3 & Q4 & Q5).
    constructor; cbn [s_clock s_waiting s_pending s_per s_turn s_next s_wire s_log]; rewrite ?Q1, ?Q2; auto.
  - destruct (take_nth k (s_waiting s)) as [[[i op] rest]|]; [|discriminate]. intros E. injection E as <-.
    destruct (Quiet (HLeft i (s_clock s)) eq_refl) as (Q1 & Q2 & Q3 & Q4 & Q5).
    constructor; cbn [log1 set_waiting s_clock s_waiting s_pending s_per s_turn s_next s_wire s_log]; rewrite ?Q1, ?Q2; auto.
  - destruct (s_turn s) as [t|] eqn:Ht; [discriminate|]. destruct (take_nth k (s_waiting s)) as [[[i op] rest]|]; [|discriminate].
    intros E. injection E as <-. destruct Wi as (sends & w0 & p0 & rs & Es & Ec & Ew & Ep).
    destruct op as [[|b m]|ms]; cbn [give].
    + constructor; cbn [s_clock s_waiting s_pending s_per s_turn s_next s_wire s_log]; auto.
      * rewrite P. unfold in_force. rewrite setting_app. reflexivity.
      * rewrite app_assoc. apply (ended_one (s_log s) i [] (s_clock s) []).
        -- apply ended_more; auto.
        -- constructor.
        -- lia.
        -- intros Q. discriminate.
      * apply Forall_app. split; [exact Ti|]. repeat constructor; cbn; lia.
      * exists (sends ++ [([], [])]), w0, p0, (rs ++ [SOk]). split; [|split].
        -- rewrite send_seq_app, Es. cbn. rewrite app_nil_r. reflexivity.
        -- rewrite map_app. cbn [map fst]. rewrite combine_snoc.
           2: { rewrite map_length. pose proof (send_seq_len sends false) as Q. rewrite Es in Q. cbn in Q. lia. }
           rewrite Ec. unfold sends_of. rewrite turns_app, map_app. reflexivity.
        -- auto.
    + set (msg := b :: m). assert (Nm : msg <> []) by discriminate. clearbody msg.
      constructor; cbn [s_clock s_waiting s_pending s_per s_turn s_next s_wire s_log]; auto.
      * rewrite P. unfold in_force. rewrite setting_app. reflexivity.
      * apply ended_more; auto.
      * apply Forall_app. split; [exact Ti|]. repeat constructor; cbn; lia.
      * cbn [t_who t_msg t_deadline]. exists (s_log s), (s_clock s), []. rewrite <- P. unfold frames. split; [reflexivity|]. split; [constructor|]. split; [reflexivity|]. split; [lia|]. apply N.le_add_r.
      * exists sends, w0, p0, rs. split; [exact Es|]. split.
        -- rewrite Ec. unfold sends_of. rewrite turns_app. cbn [turns]. rewrite app_nil_r. reflexivity.
        -- exists 0. cbn [t_msg t_todo firstn skipn]. rewrite app_nil_r, Ep. repeat split; auto; try lia. apply to_write_some. exact Nm.
    + constructor; cbn [s_clock s_waiting s_pending s_per s_turn s_next s_wire s_log]; auto.
      * unfold in_force. rewrite setting_app. cbn [setting]. apply clamp_is.
      * unfold clamp_timeout. lia.
      * apply ended_more; auto.
      * apply Forall_app. split; [exact Ti|]. repeat constructor; cbn; lia.
      * exists sends, w0, p0, rs. split; [exact Es|]. split; [|auto].
        rewrite Ec. unfold sends_of. rewrite turns_app. cbn [turns]. rewrite app_nil_r. reflexivity.
  - destruct (match s_turn s with Some t => (s_clock s <? t_deadline t)%N | None => true end) eqn:G; [|discriminate].
    intros E. injection E as <-. constructor; cbn [s_clock s_waiting s_pending s_per s_turn s_next s_wire s_log]; auto.
    + eapply Forall_impl; [|exact Ti]. cbn. intros. lia.
    + destruct (s_turn s) as [t|]; [|exact Logic.I]. apply N.ltb_lt in G. destruct T as (b & t0 & c & E & A & D & L).
      exists b, t0, c. repeat split; auto; lia.
  - destruct (s_turn s) as [t|] eqn:Ht; [|discriminate]. destruct (t_todo t) as [|p [|p2 rest]] eqn:Etd; intros E; try discriminate; injection E as <-.
    + destruct T as (before & t0 & between & E & A & D & L). destruct Wi as (sends & w0 & p0 & rs & Es & Ec & k & Ew & Et & Lk & Ne & Nm & Ep).
      symmetry in Et. destruct (skipn_cons _ _ _ _ _ Et) as (F1 & F2 & F3).
      assert (All : firstn k (to_write p0 (t_msg t)) ++ [p] = to_write p0 (t_msg t)).
      { rewrite <- F1. rewrite <- (firstn_skipn (S k) (to_write p0 (t_msg t))) at 2. rewrite F2, app_nil_r. reflexivity. }
      constructor; cbn [end_turn s_clock s_waiting s_pending s_per s_turn s_next s_wire s_log]; auto.
      * rewrite P. unfold in_force. rewrite setting_app. reflexivity.
      * rewrite E in W |- *. apply ended_one; auto; [|discriminate]. lia.
      * apply Forall_app. split; [exact Ti|]. repeat constructor; cbn; lia.
      * exists (sends ++ [(t_msg t, [])]), (w0 ++ to_write p0 (t_msg t)), false, (rs ++ [SOk]). split; [|split; [|split]].
        -- rewrite send_seq_app, Es. cbn [send_seq]. rewrite (send_done _ _ Nm), app_nil_r. reflexivity.
        -- rewrite map_app. cbn [map fst]. rewrite combine_snoc.
           2: { rewrite map_length. pose proof (send_seq_len sends false) as Q. rewrite Es in Q. cbn in Q. lia. }
           rewrite Ec. unfold sends_of. rewrite turns_app, map_app. cbn [turns map fst snd]. rewrite E, (last_turn _ _ _ _ _ A). reflexivity.
        -- rewrite Ew, <- app_assoc, All. reflexivity.
        -- reflexivity.
    + destruct Wi as (sends & w0 & p0 & rs & Es & Ec & k & Ew & Et & Lk & Ne & Nm & Ep).
      symmetry in Et. destruct (skipn_cons _ _ _ _ _ Et) as (F1 & F2 & F3).
      constructor; cbn [s_clock s_waiting s_pending s_per s_turn s_next s_wire s_log]; auto.
      exists sends, w0, p0, rs. split; [exact Es|]. split; [exact Ec|]. exists (S k). cbn [t_msg t_todo]. rewrite Ew, <- app_assoc, F1.
      repeat split; auto. discriminate.
  - destruct (s_turn s) as [t|] eqn:Ht; [|discriminate]. intros E. injection E as <-.
    pose proof (inv_end s t TClosed (WError b) (fun p => if b then [p] else []) I Ht) as Q.
    assert (Ne : t_todo t <> []) by (destruct Wi as (? & ? & ? & ? & ? & ? & ? & ? & ? & ? & ? & ?); assumption).
    destruct (t_todo t) as [|p0 tl0] eqn:Etd; [congruence|]. cbn [hd firstn] in Q |- *.
    apply Q; [split; [discriminate|intros p; reflexivity]|discriminate].
  - destruct (s_turn s) as [t|] eqn:Ht; [|discriminate]. destruct (N.leb_spec (t_deadline t) (s_clock s)) as [Le|]; [|discriminate].
    intros E. injection E as <-. pose proof (inv_end s t TTimeout (WDropped b) (fun p => if b then [p] else []) I Ht) as Q.
    assert (Ne : t_todo t <> []) by (destruct Wi as (? & ? & ? & ? & ? & ? & ? & ? & ? & ? & ? & ?); assumption).
    destruct (t_todo t) as [|p0 tl0] eqn:Etd; [congruence|]. cbn [hd firstn] in Q |- *.
    apply Q; [split; [discriminate|intros p; reflexivity]|auto].
  - destruct (s_turn s) as [t|] eqn:Ht; [|discriminate]. intros E. injection E as <-.
    pose proof (inv_end s t TDropped (WDropped b) (fun p => if b then [p] else []) I Ht) as Q.
    assert (Ne : t_todo t <> []) by (destruct Wi as (? & ? & ? & ? & ? & ? & ? & ? & ? & ? & ? & ?); assumption).
    destruct (t_todo t) as [|p0 tl0] eqn:Etd; [congruence|]. cbn [hd firstn] in Q |- *.
    apply Q; [split; [discriminate|intros p; reflexivity]|discriminate].
Qed.
Lemma inv_run es : forall s s', Inv s -> t_run s es = Some s' -> Inv s'.
Proof.
  induction es as [|e es IH]; intros s s' I; cbn [t_run]; [intros E; injection E as <-; exact I|].
  destruct (t_step s e) as [s1|] eqn:E1; [|discriminate]. apply IH. exact (inv_step _ _ _ I E1).
Qed.
