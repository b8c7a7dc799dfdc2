(** Theorems about the time that a send may take: C94. *)
From Coq Require Import NArith List Bool Arith Lia.
From Verif Require Import UsbModel UsbSpec UsbProof UsbThm TimeModel.
Import ListNotations.

(** The packets that a message takes: those with its bytes; and all that are written,
    with the empty ones that end the message before (if that was interrupted) and this
    one (if its last packet is full). *)
Definition data_packets (out : list N) : nat := (length out + 63) / 64.
Definition all_packets (interrupted : bool) (out : list N) : nat :=
  (if interrupted then 1 else 0) + data_packets out + (if length out mod 64 =? 0 then 1 else 0).
(** How long the first [n] writes take. *)
Definition time_of (n : nat) (took : list (N * bool)) : N := fold_right N.add 0%N (map fst (firstn n took)).

Lemma time_of_app n m took : time_of (n + m) took = (time_of n took + time_of m (skipn n took))%N.
Proof.
  revert took. induction n as [|n IH]; intros took; [reflexivity|].
  destruct took as [|x tl]; [unfold time_of; cbn [plus firstn skipn map fold_right]; destruct m; reflexivity|].
  unfold time_of in *. cbn [plus firstn skipn map fold_right]. rewrite IH. lia.
Qed.
Lemma land63' n : Nat.eqb (Nat.land n 63) 0 = (n mod 64 =? 0).
Proof. rewrite land63. reflexivity. Qed.
Lemma skipn_twice A n : forall m (l : list A), skipn m (skipn n l) = skipn (n + m) l.
Proof. induction n as [|n IH]; intros m [|x l]; cbn [skipn plus]; auto. destruct m; reflexivity. Qed.

Lemma write_time p limit t took : (t <= limit)%N ->
  let s := (t + time_of 1 took)%N in
  if (s <=? limit)%N then write1 p (hd WDone (writes_in limit t took)) = ([p], None) /\ List.tl (writes_in limit t took) = writes_in limit s (skipn 1 took)
  else exists w, write1 p (hd WDone (writes_in limit t took)) = (w, Some SInterrupted).
Proof.
  intros Ht. destruct took as [|[d b] tl]; cbn.
  - rewrite N.add_0_r, (proj2 (N.leb_le _ _) Ht). auto.
  - unfold time_of. cbn. rewrite N.add_0_r. destruct (N.leb_spec (t + d) limit); cbn; [auto|eauto].
Qed.
Lemma chunks_time limit chs : forall t took, (t <= limit)%N ->
  let s := (t + time_of (length chs) took)%N in
  if (s <=? limit)%N then write_chunks chs (writes_in limit t took) = (chs, None, writes_in limit s (skipn (length chs) took))
  else exists w os, write_chunks chs (writes_in limit t took) = (w, Some SInterrupted, os).
Proof.
  induction chs as [|c chs IH]; intros t took Ht; cbn [length write_chunks].
  - unfold time_of. cbn. rewrite N.add_0_r, (proj2 (N.leb_le _ _) Ht). reflexivity.
  - change (S (length chs)) with (1 + length chs). rewrite time_of_app, N.add_assoc.
    pose proof (write_time c limit t took Ht) as W. cbn zeta in W. cbn zeta.
    destruct (N.leb_spec (t + time_of 1 took) limit) as [L|L].
    + destruct W as [W1 W2]. rewrite W1, W2. specialize (IH _ (skipn 1 took) L). cbn zeta in IH.
      destruct (N.leb_spec (t + time_of 1 took + time_of (length chs) (skipn 1 took)) limit).
      * rewrite IH. rewrite skipn_twice. reflexivity.
      * destruct IH as (w & os & IH). rewrite IH. eauto.
    + destruct W as [w W]. rewrite W. destruct (N.leb_spec (t + time_of 1 took + time_of (length chs) (skipn 1 took)) limit); [lia|eauto].
Qed.

(** A send completes exactly if all its packets, also the empty ones, are written within
    the time allowed for those with data.  If it does not, it is given up, and the next
    one writes an empty packet more. *)
Theorem C94_completes_iff :
  forall per interrupted out took, out <> [] ->
    let '(_, interrupted', r) := timed_send per interrupted out took in
    let needed := time_of (all_packets interrupted out) took in
    let allowed := (N.of_nat (data_packets out) * per)%N in
    ((needed <= allowed)%N -> r = SOk /\ interrupted' = false) /\
    ((allowed < needed)%N -> r = SInterrupted /\ interrupted' = true).
Proof.
  intros per intr out took Ne.
  assert (Lim : ((N.of_nat (length out) + 63) / 64 * per = N.of_nat (data_packets out) * per)%N).
  { f_equal. unfold data_packets. rewrite Nat2N.inj_div, Nat2N.inj_add. reflexivity. }
  unfold timed_send. rewrite Lim. set (limit := (N.of_nat (data_packets out) * per)%N).
  unfold send_all. destruct out as [|o out']; [congruence|]. set (out := o :: out') in *. rewrite land63'.
  unfold all_packets.
  assert (Rest : forall t took, (t <= limit)%N ->
    let s := (t + time_of (data_packets out + (if (length out mod 64 =? 0)%nat then 1 else 0))%nat took)%N in
    forall w0,
    let '(_, p', r) :=
      let '(w1, r1, os1) := write_chunks (chunks 64 out) (writes_in limit t took) in
      match r1 with
      | Some r => (w0 ++ w1, true, r)
      | None =>
        if length out mod 64 =? 0 then
          let (w2, r2) := write1 [] (hd WDone os1) in
          match r2 with
          | Some r => (w0 ++ w1 ++ w2, true, r)
          | None => (w0 ++ w1 ++ w2, false, SOk)
          end
        else (w0 ++ w1, false, SOk)
      end in
    ((s <= limit)%N -> r = SOk /\ p' = false) /\ ((limit < s)%N -> r = SInterrupted /\ p' = true)).
  { clear took. intros t took Ht s w0. unfold s. clear s. pose proof (chunks_time limit (chunks 64 out) t took Ht) as C.
    rewrite C52_counts_packets in C. fold (data_packets out) in C. cbn zeta in C. rewrite time_of_app, N.add_assoc.
    destruct (N.leb_spec (t + time_of (data_packets out) took) limit) as [L|L].
    - rewrite C. destruct (length out mod 64 =? 0).
      + pose proof (write_time [] limit _ (skipn (data_packets out) took) L) as W. cbn zeta in W.
        destruct (N.leb_spec (t + time_of (data_packets out) took + time_of 1 (skipn (data_packets out) took)) limit) as [L2|L2].
        * destruct W as [W _]. rewrite W. split; [auto|lia].
        * destruct W as [x W]. rewrite W. split; [lia|auto].
      + replace (time_of 0 (skipn (data_packets out) took)) with 0%N by reflexivity. rewrite N.add_0_r. split; [auto|lia].
    - destruct C as (x & os & C). rewrite C. split; [intros; lia|auto]. }
  cbn zeta. destruct intr.
  - pose proof (write_time [] limit 0 took (N.le_0_l _)) as W. cbn zeta in W. rewrite N.add_0_l in W.
    rewrite <- Nat.add_assoc, time_of_app.
    destruct (N.leb_spec (time_of 1 took) limit) as [L|L].
    + destruct W as [W1 W2]. rewrite W1, W2. exact (Rest _ (skipn 1 took) L _).
    + destruct W as [x W]. rewrite W. split; [lia|auto].
  - exact (Rest 0%N took (N.le_0_l _) []).
Qed.
Print Assumptions C94_completes_iff.

(** Every write takes at most [d] ms. *)
Definition each_at_most (d : N) (took : list (N * bool)) : Prop := Forall (fun x => (fst x <= d)%N) took.
Lemma time_of_most d took n : each_at_most d took -> (time_of n took <= N.of_nat n * d)%N.
Proof.
  intros H. revert took H. induction n as [|n IH]; intros [|x took] H; unfold time_of in *; cbn [firstn map fold_right]; try lia.
  inversion H; subst. specialize (IH _ H3). lia.
Qed.
Lemma some_packet out : out <> [] -> 1 <= data_packets out.
Proof. intros H. unfold data_packets. apply Nat.div_le_lower_bound; [discriminate|]. destruct out; [congruence|]. cbn [length]. lia. Qed.

(** If the host takes each packet within a third of the time allowed for one, every send
    completes, whatever was sent before. *)
Theorem C94_a_third_suffices :
  forall per sends interrupted,
    Forall (fun x => fst x <> [] /\ exists d, (3 * d <= per)%N /\ each_at_most d (snd x)) sends ->
    snd (timed_sends per interrupted sends) = map (fun _ => SOk) sends.
Proof.
  intros per sends. induction sends as [|[out took] sends IH]; intros intr F; [reflexivity|].
  inversion F as [|? ? [Ne (d & Hd & Hm)] F']; subst. cbn [fst snd] in *. cbn [timed_sends map].
  pose proof (C94_completes_iff per intr out took Ne) as C. destruct (timed_send per intr out took) as [[w i'] r]. cbn zeta in C.
  destruct C as [C _]. destruct C as [-> ->].
  - eapply N.le_trans; [apply time_of_most, Hm|]. pose proof (some_packet out Ne).
    assert (A : all_packets intr out <= 3 * data_packets out) by (unfold all_packets; destruct intr, (_ =? 0); lia).
    transitivity (N.of_nat (3 * data_packets out) * d)%N; [apply N.mul_le_mono_r; lia|].
    rewrite Nat2N.inj_mul. change (N.of_nat 3) with 3%N. transitivity (N.of_nat (data_packets out) * (3 * d))%N; [lia|]. apply N.mul_le_mono_l. exact Hd.
  - specialize (IH false F'). destruct (timed_sends per false sends) as [p rs]. cbn [snd] in *. rewrite IH. reflexivity.
Qed.
Print Assumptions C94_a_third_suffices.

(** If nothing was interrupted before, half of that time suffices. *)
Theorem C94_a_half_suffices_partial :
  forall per sends,
    Forall (fun x => fst x <> [] /\ exists d, (2 * d <= per)%N /\ each_at_most d (snd x)) sends ->
    snd (timed_sends per false sends) = map (fun _ => SOk) sends.
Proof.
  intros per sends. induction sends as [|[out took] sends IH]; intros F; [reflexivity|].
  inversion F as [|? ? [Ne (d & Hd & Hm)] F']; subst. cbn [fst snd] in *. cbn [timed_sends map].
  pose proof (C94_completes_iff per false out took Ne) as C. destruct (timed_send per false out took) as [[w i'] r]. cbn zeta in C.
  destruct C as [C _]. destruct C as [-> ->].
  - eapply N.le_trans; [apply time_of_most, Hm|]. pose proof (some_packet out Ne).
    assert (A : all_packets false out <= 2 * data_packets out) by (unfold all_packets; destruct (_ =? 0); lia).
    transitivity (N.of_nat (2 * data_packets out) * d)%N; [apply N.mul_le_mono_r; lia|].
    rewrite Nat2N.inj_mul. change (N.of_nat 2) with 2%N. transitivity (N.of_nat (data_packets out) * (2 * d))%N; [lia|]. apply N.mul_le_mono_l. exact Hd.
  - specialize (IH F'). destruct (timed_sends per false sends) as [p rs]. cbn [snd] in *. rewrite IH. reflexivity.
Qed.
Print Assumptions C94_a_half_suffices_partial.

(** If, moreover, no message fills its last packet, each packet may take all of it. *)
Theorem C94_keeping_pace_suffices_partial :
  forall per sends,
    Forall (fun x => length (fst x) mod 64 <> 0 /\ each_at_most per (snd x)) sends ->
    snd (timed_sends per false sends) = map (fun _ => SOk) sends.
Proof.
  intros per sends. induction sends as [|[out took] sends IH]; intros F; [reflexivity|].
  inversion F as [|? ? [Nz Hm] F']; subst. cbn [fst snd] in *. cbn [timed_sends map].
  assert (Ne : out <> []) by (intros ->; apply Nz; reflexivity).
  pose proof (C94_completes_iff per false out took Ne) as C. destruct (timed_send per false out took) as [[w i'] r]. cbn zeta in C.
  destruct C as [C _]. destruct C as [-> ->].
  - eapply N.le_trans; [apply time_of_most, Hm|]. apply N.mul_le_mono_r. unfold all_packets.
    destruct (Nat.eqb_spec (length out mod 64) 0); [congruence|]. lia.
  - specialize (IH F'). destruct (timed_sends per false sends) as [p rs]. cbn [snd] in *. rewrite IH. reflexivity.
Qed.
Print Assumptions C94_keeping_pace_suffices_partial.

(** But in general it does not suffice that the host takes every packet within the time
    allowed for one. *)
Theorem C94_keeping_pace_suffices_refuted :
  exists per out took, each_at_most per took /\ snd (timed_send per false out took) = SInterrupted.
Proof.
  exists 2%N, (repeat 7%N 64), [(2%N, true); (1%N, true)]. split; [repeat constructor; discriminate|vm_compute; reflexivity].
Qed.
Print Assumptions C94_keeping_pace_suffices_refuted.

(** And one delay can have consequences for ever: with packets that take 1 ms each, at the
    default of 2 ms per packet, any number of messages of 64 bytes are sent; but not if
    the message before them was interrupted. *)
Lemma full_ok n : let sends := repeat (repeat 7%N 64, [(1, true); (1, true); (1, true)]%N) n in
  timed_sends 2 false sends = (false, repeat SOk n) /\ timed_sends 2 true sends = (true, repeat SInterrupted n).
Proof.
  cbn zeta. set (took := [(1, true); (1, true); (1, true)]%N).
  assert (E0 : exists w, timed_send 2 false (repeat 7%N 64) took = (w, false, SOk)) by (eexists; vm_compute; reflexivity).
  assert (E1 : exists w, timed_send 2 true (repeat 7%N 64) took = (w, true, SInterrupted)) by (eexists; vm_compute; reflexivity).
  set (out := repeat 7%N 64) in *. clearbody out took. destruct E0 as [w0 E0]. destruct E1 as [w1 E1].
  induction n as [|n [A B]]; [split; reflexivity|]. cbn [repeat timed_sends]. rewrite E0, E1, A, B. split; reflexivity.
Qed.
Theorem C94_recovers_from_a_delay_refuted :
  exists per out slow took,
    each_at_most 1 took /\
    forall n,
      snd (timed_sends per false (repeat (out, took) n)) = repeat SOk n /\
      snd (timed_sends per false ((out, slow) :: repeat (out, took) n)) = repeat SInterrupted (S n).
Proof.
  exists 2%N, (repeat 7%N 64), [(9%N, true)], [(1, true); (1, true); (1, true)]%N. split; [repeat constructor; discriminate|].
  intros n. destruct (full_ok n) as [A B]. split; [rewrite A; reflexivity|].
  cbn [timed_sends]. assert (E : exists w, timed_send 2 false (repeat 7%N 64) [(9%N, true)] = (w, true, SInterrupted)) by (eexists; vm_compute; reflexivity).
  destruct E as [w E]. rewrite E, B. reflexivity.
Qed.
Print Assumptions C94_recovers_from_a_delay_refuted.

(** Messages of 10, 64, 128 and 200 bytes; packets that take up to 2 ms, of 6 allowed, after an
    interrupted message. *)
Example C94_ex :
  let took := [(2, true); (0, false); (1, true); (2, true); (2, false)]%N in
  let sends := [(repeat 1%N 10, took); (repeat 2%N 64, took); (repeat 3%N 128, took); (repeat 4%N 200, took)] in
  Forall (fun x => fst x <> [] /\ exists d, (3 * d <= 6)%N /\ each_at_most d (snd x)) sends /\
  snd (timed_sends 6 true sends) = [SOk; SOk; SOk; SOk] /\
  map (fun x => all_packets false (fst x)) sends = [1; 2; 3; 4].
Proof.
  split; [|vm_compute; auto].
  repeat (apply Forall_cons; [split; [discriminate|exists 2%N; split; [discriminate|repeat constructor; discriminate]]|]). apply Forall_nil.
Qed.
Example C94_pace_ex :
  let took := [(2, true); (2, false); (1, true); (2, true)]%N in
  let sends := [(repeat 1%N 10, took); (repeat 4%N 200, took)] in
  Forall (fun x => length (fst x) mod 64 <> 0 /\ each_at_most 2 (snd x)) sends /\ snd (timed_sends 2 false sends) = [SOk; SOk].
Proof.
  split; [|vm_compute; auto].
  repeat (apply Forall_cons; [split; [discriminate|repeat constructor; discriminate]|]). apply Forall_nil.
Qed.
