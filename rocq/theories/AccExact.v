(** Exactly what the accumulator and the serial receiver make of frames that are too long
    or too short (C23, C24). *)
From Coq Require Import NArith List Bool Arith Lia.
From Verif Require Import KeyModel HeaderModel HeaderSpec HeaderProof CobsModel AccModel CobsProof AccProof AccThm.
Import ListNotations.
Local Open Scope N_scope.

Lemma skipn_app_all {A} (p w : list A) n : (length p <= n)%nat -> skipn n (p ++ w) = skipn (n - length p) w.
Proof. intros L. rewrite skipn_app, skipn_all2 by lia. reflexivity. Qed.
Lemma skipn_more {A} n m (l : list A) : skipn (n + m) l = skipn m (skipn n l).
Proof. revert l. induction n as [|n IH]; intros l; [reflexivity|]. destruct l; cbn; [now rewrite skipn_nil|apply IH]. Qed.
Lemma nz_skipn n w : nz w -> nz (skipn n w).
Proof.
  intros Z. apply Forall_forall. intros b Hb. unfold nz in Z. rewrite Forall_forall in Z. apply Z.
  rewrite <- (firstn_skipn n w). apply in_or_app. auto.
Qed.
Lemma nz_in e : ~ In 0 e -> nz e.
Proof. intros H. apply Forall_forall. intros b Hb ->. auto. Qed.

(** A window without terminator. *)
Lemma pending_window size p w evs p' : (1 <= size)%nat -> feeds size p w evs p' -> nz w -> (length p <= size)%nat ->
  evs = repeat FOverFull ((length p + length w - 1) / size) /\
  p' = skipn ((length p + length w - 1) / size * size) (p ++ w).
Proof.
  intros Hs F. induction F as [p|p c Hc Z L|p c evs p' Hc Z L F IH|p x r evs p' Hx L F IH|p x r evs p' Hx L F IH]; intros Zw Lp.
  - cbn [length]. rewrite Nat.add_0_r, (Nat.div_small (length p - 1) size) by lia. cbn. rewrite app_nil_r. auto.
  - rewrite (Nat.div_small _ size) by lia. cbn. auto.
  - destruct IH as [-> ->]; [now apply nz_skipn|cbn; lia|].
    assert (E : ((length p + length c - 1) / size = S ((length (skipn (size - length p) c) - 1) / size))%nat).
    { rewrite skipn_length.
      replace (length p + length c - 1)%nat with (1 * size + (length c - (size - length p) - 1))%nat by lia.
      rewrite Nat.div_add_l by lia. lia. }
    rewrite E. cbn [length Nat.add app]. split; [reflexivity|]. cbn [Nat.mul].
    rewrite skipn_more, (skipn_app_all p c size) by lia. reflexivity.
  - exfalso. eapply nz_no_zero; [exact Zw|reflexivity].
  - exfalso. eapply nz_no_zero; [exact Zw|reflexivity].
Qed.

(** Several of them. *)
Lemma pending_chunks size cs : (1 <= size)%nat -> forall p evs p', feeds_chunks size p cs evs p' -> nz (concat cs) -> (length p <= size)%nat ->
  evs = repeat FOverFull ((length p + length (concat cs) - 1) / size) /\
  p' = skipn ((length p + length (concat cs) - 1) / size * size) (p ++ concat cs).
Proof.
  intros Hs. induction cs as [|c cs IH]; intros p evs p' F Z L.
  - inversion F; subst. cbn [concat length]. rewrite Nat.add_0_r, (Nat.div_small _ size) by lia. cbn. rewrite app_nil_r. auto.
  - inversion F as [|? ? ? e1 p1 e2 p2 F1 F2]; subst. cbn [concat] in *. unfold nz in Z. apply Forall_app in Z. destruct Z as [Z1 Z2].
    destruct (pending_window size _ _ _ _ Hs F1 Z1 L) as [-> ->].
    set (L1 := (length p + length c)%nat) in *. set (q := ((L1 - 1) / size)%nat) in *.
    assert (Q : (q * size <= L1 - 1 /\ L1 - 1 < q * size + size)%nat).
    { pose proof (Nat.div_mod (L1 - 1) size ltac:(lia)) as D. pose proof (Nat.mod_upper_bound (L1 - 1) size ltac:(lia)) as U. fold q in D. nia. }
    assert (P1 : length (skipn (q * size) (p ++ c)) = (L1 - q * size)%nat).
    { rewrite skipn_length, app_length. reflexivity. }
    destruct (IH _ _ _ F2 Z2) as [-> ->]; [rewrite P1; lia|].
    rewrite P1, app_length.
    assert (E : ((length p + (length c + length (concat cs)) - 1) / size = q + (L1 - q * size + length (concat cs) - 1) / size)%nat).
    { destruct (Nat.eq_dec L1 0) as [L0|L0].
      - rewrite L0 in *. assert (q = 0)%nat by (unfold q; apply Nat.div_small; lia). rewrite H. cbn. unfold L1 in L0. f_equal. lia.
      - replace (length p + (length c + length (concat cs)) - 1)%nat with (q * size + (L1 - q * size + length (concat cs) - 1))%nat by (unfold L1; unfold L1 in Q, L0; lia).
        rewrite Nat.div_add_l by lia. reflexivity. }
    rewrite E. split.
    + now rewrite repeat_app.
    + rewrite Nat.mul_add_distr_r, skipn_more. f_equal. rewrite app_assoc, (skipn_app (q * size) (p ++ c)).
      replace (q * size - length (p ++ c))%nat with 0%nat by (rewrite app_length; fold L1; lia). reflexivity.
Qed.

(** Exactly what becomes of a frame, of any length and however it is cut up.  [e] is the
    frame as it comes over the line, [before] the pieces that arrive before the one with
    the terminator.  For every full buffer of bytes that is exceeded by those pieces, one overflow
    is reported and that many bytes are forgotten; what is left of the frame is decoded as if it
    were a frame if it fits.  What comes afterwards is not affected. *)
Theorem C23_exactly_partial :
  forall size before last more rest evs a,
    (1 <= size)%nat -> ~ In 0 (concat before ++ last) ->
    feed_chunks (acc_new size) (more :: rest) = Some (evs, a) ->
    let e := concat before ++ last in
    let lost := ((length (concat before) - 1) / size)%nat in
    let left := skipn (lost * size) e in
    exists a', feed_chunks (acc_new size) (before ++ (last ++ 0 :: more) :: rest) =
      Some (repeat FOverFull lost ++
            (if (length left + 1 <=? size)%nat
             then match decode left with Some m => FData m | None => FBad end
             else FOverFull) :: evs, a').
Proof.
  intros size before last more rest evs a Hs Hz Hm e lost left.
  assert (Z := nz_in _ Hz). unfold nz in Z. apply Forall_app in Z. destruct Z as [Z1 Z2].
  destruct (feed_chunks_feeds size Hs before _ _ (acc_new_ok size)) as (e1 & a1 & p1 & F1 & A1 & FC1).
  destruct (pending_chunks size before Hs _ _ _ FC1 Z1 ltac:(cbn; lia)) as [-> ->]. cbn [length Nat.add app] in *. fold lost in FC1, A1.
  destruct (feed_chunks_feeds size Hs (more :: rest) _ _ (acc_new_ok size)) as (e2 & a2 & p2 & F2 & A2 & FC2).
  rewrite Hm in F2. injection F2 as <- <-.
  inversion FC2 as [|? ? ? e3 p3 e4 p4 F3 F4]; subst.
  assert (D : ((lost * size <= length (concat before) - 1))%nat).
  { unfold lost. pose proof (Nat.div_mod (length (concat before) - 1) size ltac:(lia)). nia. }
  assert (Le : left = skipn (lost * size) (concat before) ++ last).
  { unfold left, e. rewrite skipn_app. replace (lost * size - length (concat before))%nat with 0%nat by lia. reflexivity. }
  assert (FC : feeds_chunks size [] (before ++ (last ++ 0 :: more) :: rest)
     (repeat FOverFull lost ++ ((if (length left + 1 <=? size)%nat then decoded left else FOverFull) :: e3) ++ e4) p2).
  { eapply feeds_chunks_app; [exact FC1|]. econstructor; [|exact F4].
    rewrite Le, app_length. destruct (Nat.leb_spec (length (skipn (lost * size) (concat before)) + length last + 1) size) as [G|G].
    - apply fd_frame; [exact Z2|exact G|exact F3].
    - apply fd_frame_over; [exact Z2|exact G|exact F3]. }
  destruct (feed_chunks_feeds size Hs (before ++ (last ++ 0 :: more) :: rest) _ _ (acc_new_ok size)) as (e5 & a5 & p5 & F5 & _ & FC5).
  destruct (feeds_chunks_fun _ _ _ _ _ FC5 _ _ FC) as [-> _]. exists a5. rewrite F5. reflexivity.
Qed.
Print Assumptions C23_exactly_partial.

(** So the end of a frame that is too long is delivered as a message exactly when more than a buffer full
    of it arrives before the piece with the terminator, and what the buffer then holds,
    with that piece, fits and happens to be valid. *)
Theorem C23_surfaces_iff_partial :
  forall size before last,
    (1 <= size)%nat -> ~ In 0 (concat before ++ last) -> (size < length (concat before ++ last) + 1)%nat ->
    let lost := ((length (concat before) - 1) / size)%nat in
    forall m,
    (exists evs a, feed_chunks (acc_new size) (before ++ [last ++ [0]]) = Some (evs, a) /\ In (FData m) evs) <->
    (size < length (concat before))%nat /\
    (length (concat before ++ last) - lost * size < size)%nat /\
    decode (skipn (lost * size) (concat before ++ last)) = Some m.
Proof.
  intros size before last Hs Hz Hl lost m.
  assert (E0 : exists a, feed_chunks (acc_new size) [[]] = Some ([], a)) by (eexists; reflexivity).
  destruct E0 as [a0 E0].
  destruct (C23_exactly_partial size before last [] [] [] a0 Hs Hz E0) as [a' E]. cbv zeta in E. fold lost in E.
  rewrite skipn_length in E. rewrite E. clear E.
  assert (NR : forall k, ~ In (FData m) (repeat FOverFull k)) by (intros k H; apply repeat_spec in H; discriminate).
  split.
  - intros (evs & a & [= <- <-] & H). apply in_app_iff in H. destruct H as [H|[H|[]]]; [now apply NR in H|].
    destruct (Nat.leb_spec (length (concat before ++ last) - lost * size + 1) size) as [G|G]; [|discriminate].
    split; [|split].
    + destruct (le_lt_dec (length (concat before)) size) as [B|B]; [|exact B]. exfalso.
      assert (lost = 0)%nat by (apply Nat.div_small; lia). rewrite H0 in G. lia.
    + lia.
    + destruct (decode _); congruence.
  - intros (_ & G & D). eexists _, _. split; [reflexivity|]. apply in_or_app. right.
    destruct (Nat.leb_spec (length (concat before ++ last) - lost * size + 1) size) as [G'|G']; [|lia].
    rewrite D. now left.
Qed.
Print Assumptions C23_surfaces_iff_partial.

Example C23_exactly_ex :
  let before := [[9; 9; 9]; [9; 2]] in let last := [7] in
  ~ In 0 (concat before ++ last) /\ (4 < length (concat before ++ last) + 1)%nat /\
  ((length (concat before) - 1) / 4 = 1)%nat /\ decode (skipn 4 (concat before ++ last)) = Some [7] /\
  option_map fst (feed_chunks (acc_new 4) (before ++ (last ++ 0 :: [2]) :: [[5; 0]])) = Some [FOverFull; FData [7]; FData [5]].
Proof.
  split; [cbn; intros H; repeat (destruct H as [H|H]; [discriminate H|]); exact H|]. split; [cbn; lia|].
  repeat split; vm_compute; reflexivity.
Qed.

(** ** C24 *)

(** Exactly what the serial transport receives, whatever arrives: the messages that the
    accumulator finds, except those of fewer than nine bytes, in order; then it waits. *)
Theorem C24_exactly_partial :
  forall reads evs a n,
    feed_chunks (acc_new 1024) reads = Some (evs, a) ->
    let msgs := flat_map (fun e => match e with FData d => [d] | _ => [] end) evs in
    let long := filter (fun d => (9 <=? length d)%nat) msgs in
    (length long < n)%nat ->
    serial_recvs n serial_new (map ReadBytes reads) = (long, SWaiting).
Proof.
  intros reads evs a n F msgs long Hn.
  assert (K : keep_messages evs = long).
  { clear. unfold long, msgs, keep_messages. induction evs as [|e evs IH]; [reflexivity|]. cbn [flat_map].
    rewrite filter_app, <- IH. destruct e; reflexivity. }
  destruct (feed_chunks_feeds 1024 ltac:(lia) reads _ _ (acc_new_ok 1024)) as (e1 & a1 & p1 & F1 & _ & FC).
  rewrite F in F1. injection F1 as <- <-.
  pose proof (serial_recvs_feeds reads serial_new [] _ _ n (acc_new_ok 1024) FC) as R. rewrite K in R. apply R. exact Hn.
Qed.
Print Assumptions C24_exactly_partial.

(** In particular, of messages that fit exactly those of at least nine bytes arrive. *)
Theorem C24_lost_iff_short_partial :
  forall oe of_ frames reads n,
    Forall (fun f => (length (serial_send oe of_ f) <= 1024)%nat) frames ->
    concat reads = concat (map (serial_send oe of_) frames) ->
    (length frames < n)%nat ->
    serial_recvs n serial_new (map ReadBytes reads) = (filter (fun f => (9 <=? length f)%nat) frames, SWaiting).
Proof.
  intros oe of_ frames reads n Hf E Hn.
  assert (Hfit : fits_all oe of_ 1024 frames).
  { eapply Forall_impl; [|exact Hf]. intros f. cbv beta. unfold serial_send. rewrite app_length. cbn. lia. }
  destruct (C21_any_chunking oe of_ 1024 frames reads [] ltac:(lia) Hfit (fun H => H) ltac:(cbn; lia)) as (a & F & _).
  { rewrite app_nil_r. exact E. }
  assert (M : forall l, flat_map (fun e => match e with FData d => [d] | _ => [] end) (map FData l) = l).
  { induction l as [|x l IH]; [reflexivity|]. cbn. now rewrite IH. }
  pose proof (C24_exactly_partial reads _ _ n F) as R. cbv zeta in R. rewrite M in R. apply R.
  eapply Nat.le_lt_trans; [|exact Hn]. clear. induction frames as [|x l IH]; cbn [filter]; [lia|]. destruct (9 <=? length x)%nat; cbn [length]; lia.
Qed.
Print Assumptions C24_lost_iff_short_partial.

Example C24_exactly_ex :
  let frames := [[1; 2; 3]; [1; 2; 3; 4; 5; 6; 7; 8; 9]; [0; 0; 0; 0; 0; 0; 0; 0]] in
  serial_recvs 4 serial_new [ReadBytes (concat (map (serial_send false false) frames))] =
    ([[1; 2; 3; 4; 5; 6; 7; 8; 9]], SWaiting).
Proof. vm_compute. reflexivity. Qed.
