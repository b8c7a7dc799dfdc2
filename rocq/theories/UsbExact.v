(** Exactly what is left of a frame that is too long for the device (C18), and exactly which
    transfers the host loses when it recovers from a stall (C55). *)
From Coq Require Import NArith List Bool Arith Lia.
From Verif Require Import UsbModel UsbSpec UsbProof UsbThm NusbRxModel NusbRxThm.
Import ListNotations.

Lemma app_same_length {A} (a b x y : list A) : length a = length b -> a ++ x = b ++ y -> a = b /\ x = y.
Proof.
  revert b. induction a as [|h a IH]; intros [|g b] L E; try discriminate L; [auto|].
  injection E as -> E. injection L as L. destruct (IH b L E) as [-> ->]. auto.
Qed.
Lemma packed_fun l a : packed l a -> forall b, packed l b -> a = b.
Proof.
  induction 1 as [|l H1 H2|cc l chs Hc P IH]; intros b Hb.
  - inversion Hb as [E|l' L1 L2 E|c' l' chs' L P' E]; subst; auto; [cbn in L1; lia|].
    apply app_eq_nil in E. destruct E as [-> _]. discriminate L.
  - inversion Hb as [E|l' L1 L2 E|c' l' chs' L P' E]; subst; auto; [cbn in H1; lia|]. rewrite app_length in H2. lia.
  - inversion Hb as [E|l' L1 L2 E|c' l' chs' L P' E]; subst.
    + symmetry in E. apply app_eq_nil in E. destruct E as [-> _]. discriminate Hc.
    + rewrite app_length in L2. lia.
    + destruct (app_same_length c' cc l' l ltac:(lia) E) as [-> ->]. f_equal. now apply IH.
Qed.

Lemma skipn_frame_packets f : forall m,
  skipn m (frame_packets f) = if 64 * m <=? length f then frame_packets (skipn (64 * m) f) else [].
Proof.
  unfold frame_packets. pose proof (chunks_packed f) as P. revert P. generalize (chunks 64 f) as chs. intros chs P.
  induction P as [|l H1 H2|cc l chs Hc P IH]; intros m.
  - destruct m; [reflexivity|]. destruct (Nat.leb_spec (64 * S m) (length (@nil N))) as [L|L]; [cbn [length] in L; lia|]. cbn. apply skipn_nil.
  - rewrite (Nat.mod_small (length l) 64) by lia. destruct (Nat.eqb_spec (length l) 0); [lia|]. destruct m.
    + change (64 * 0) with 0. cbn [Nat.leb skipn]. rewrite (Nat.mod_small (length l) 64) by lia. destruct (Nat.eqb_spec (length l) 0); [lia|]. f_equal.
      apply (packed_fun l); [now constructor|apply chunks_packed].
    + destruct (Nat.leb_spec (64 * S m) (length l)) as [L|L]; [lia|]. cbn. apply skipn_nil.
  - rewrite app_length, mod64_add by auto. destruct m.
    + change (64 * 0) with 0. cbn [Nat.leb skipn]. rewrite app_length, mod64_add by auto. f_equal.
      apply (packed_fun (cc ++ l)); [now constructor|apply chunks_packed].
    + cbn [app skipn]. rewrite IH.
      assert (E : (64 * S m <=? length cc + length l) = (64 * m <=? length l)).
      { destruct (Nat.leb_spec (64 * m) (length l)), (Nat.leb_spec (64 * S m) (length cc + length l)); auto; lia. }
      rewrite E. destruct (64 * m <=? length l); [|reflexivity].
      assert (S' : skipn (64 * S m) (cc ++ l) = skipn (64 * m) l).
      { rewrite skipn_app, skipn_all2 by lia. cbn [app]. f_equal. lia. }
      rewrite S'. reflexivity.
Qed.

Lemma fill_overflow c l chs rest : packed l chs -> forall i j r acc,
  0 < r -> r < 64 -> length acc = 64 * j -> 64 * (j + i) + r < length acc + length l ->
  fill c (64 * (j + i) + r) acc (map Pkt (chs ++ (if length l mod 64 =? 0 then [[]] else [])) ++ rest) =
    (RTooLarge, map Pkt (skipn (i + if c then 1 else 0) (chs ++ (if length l mod 64 =? 0 then [[]] else []))) ++ rest).
Proof.
  induction 1 as [|l H1 H2|cc l chs Hc P IH]; intros i j r acc R0 R1 La Lt; rewrite fill_unfold; cbv zeta.
  - cbn [length] in Lt. lia.
  - assert (i = 0) by lia. subst i. rewrite (Nat.mod_small (length l) 64) by lia.
    destruct (Nat.eqb_spec (length l) 0); [lia|]. destruct (Nat.eqb_spec (64 * (j + 0) + r - length acc) 0); [lia|].
    cbn [app map]. destruct (Nat.ltb_spec (64 * (j + 0) + r - length acc) (length l)); [|lia]. destruct c; reflexivity.
  - rewrite app_length, mod64_add by auto. cbn [app map].
    destruct (Nat.eqb_spec (64 * (j + i) + r - length acc) 0); [lia|].
    destruct (Nat.ltb_spec (64 * (j + i) + r - length acc) (length cc)) as [L|L].
    + assert (i = 0) by lia. subst i. destruct c; reflexivity.
    + rewrite Hc. cbn [Nat.eqb]. destruct i as [|i]; [lia|].
      replace (64 * (j + S i) + r) with (64 * (S j + i) + r) by lia.
      rewrite IH; auto; [rewrite app_length; lia|]. rewrite !app_length in *. lia.
Qed.

(** Exactly what happens with a frame that is too long, for a buffer whose length is not a
    multiple of 64: the error is reported when the first [64 * m] bytes have been
    read, and what is left of the frame is received as if it were a frame by itself. *)
Theorem C18_exactly_partial :
  forall (consumes : bool) buflen f rest,
    buflen mod 64 <> 0 -> buflen < length f ->
    let m := buflen / 64 + (if consumes then 1 else 0) in
    let left := if 64 * m <=? length f then frame_packets (skipn (64 * m) f) else [] in
    receive consumes buflen (map Pkt (frame_packets f) ++ rest) = (RTooLarge, map Pkt left ++ rest).
Proof.
  intros c B f rest Hm L m left. unfold receive, left. rewrite <- skipn_frame_packets.
  pose proof (Nat.div_mod B 64 ltac:(lia)) as D. pose proof (Nat.mod_upper_bound B 64 ltac:(lia)) as U.
  assert (E := fill_overflow c f _ rest (chunks_packed f) (B / 64) 0 (B mod 64) [] ltac:(lia) U eq_refl).
  cbn [Nat.add length] in E. rewrite <- D in E. exact (E L).
Qed.
Print Assumptions C18_exactly_partial.

(** So the end of the frame is delivered as a frame, if it fits. *)
Theorem C18_tail_delivered_partial :
  forall (consumes : bool) buflen f rest,
    buflen mod 64 <> 0 -> buflen < length f ->
    let m := buflen / 64 + (if consumes then 1 else 0) in
    64 * m <= length f -> length f - 64 * m <= buflen ->
    exists rest1, receive consumes buflen (map Pkt (frame_packets f) ++ rest) = (RTooLarge, rest1) /\
      receive consumes buflen rest1 = (RGot (skipn (64 * m) f), rest).
Proof.
  intros c B f rest Hm L m Lm F. eexists. split; [now apply C18_exactly_partial|].
  fold m. destruct (Nat.leb_spec (64 * m) (length f)); [|lia]. apply receive_fits. rewrite skipn_length. split; [exact F|].
  intros [E Z]. rewrite E in Z. contradiction.
Qed.
Print Assumptions C18_tail_delivered_partial.

Example C18_exactly_ex :
  100 mod 64 <> 0 /\ 100 < length (x_msg 130) /\
  100 / 64 + 1 = 2 /\ 64 * 2 <= length (x_msg 130) /\ length (x_msg 130) - 64 * 2 <= 100 /\
  receive true 100 (map Pkt (frame_packets (x_msg 130))) = (RTooLarge, map Pkt [skipn 128 (x_msg 130)]) /\
  receive true 100 (map Pkt [skipn 128 (x_msg 130)]) = (RGot (skipn 128 (x_msg 130)), []).
Proof. repeat split; try (vm_compute; lia); try (vm_compute; reflexivity); vm_compute; discriminate. Qed.

(** ** C55 *)

(** What happens on the queue: a transfer completes, or one fails with an error that the
    host recovers from, together with the three transfers that complete after it. *)
Inductive QueueEvent :=
| Completed (data : list N)
| Recovered (e : TransferError) (three : list Completion).
Definition on_queue (v : QueueEvent) : list Completion :=
  match v with
  | Completed d => [COk d]
  | Recovered e three => CErr e :: three
  end.
Definition well_formed (v : QueueEvent) : Prop :=
  match v with
  | Completed _ => True
  | Recovered e three => (e = Stall \/ e = Unknown) /\ length three = 3
  end.
(** No more than [MAX_STALL_RETRIES] recoveries in a row, [errs] of which have been already. *)
Fixpoint few_errors (errs : nat) (vs : list QueueEvent) : Prop :=
  match vs with
  | [] => True
  | Completed _ :: tl => few_errors 0 tl
  | Recovered _ _ :: tl => errs < 10 /\ few_errors (S errs) tl
  end.
Definition delivered (vs : list QueueEvent) : list (list N) :=
  flat_map (fun v => match v with Completed d => [d] | Recovered _ _ => [] end) vs.

Lemma drain_three three tl : length three = 3 ->
  drain_requests 3 3 (three ++ tl) = (None, 0, tl, [ADrain 3; ADrain 2; ADrain 1]).
Proof. intros L. destruct three as [|a [|b [|c [|]]]]; try discriminate L. reflexivity. Qed.

Lemma recv_more_fuel vs : forall fuel p errs tl halts, p <= 4 -> length (flat_map on_queue vs ++ tl) < fuel ->
  Forall well_formed vs -> few_errors errs vs -> (forall h, In h halts -> h = true) ->
  forall d r, vs = r -> (exists pre post, vs = pre ++ Completed d :: post /\ delivered pre = []) ->
  exists p' h' post pre aw, vs = pre ++ Completed d :: post /\ delivered pre = [] /\ p' <= 4 /\
    (forall h, In h h' -> h = true) /\
    recv_inner fuel p errs (flat_map on_queue vs ++ tl) halts = (NGot d, p', 0, flat_map on_queue post ++ tl, h', aw).
Proof.
  induction vs as [|v vs IH]; intros fuel p errs tl halts Hp Hf W F H d r _ (pre & post & E & Dp).
  - destruct pre; discriminate E.
  - destruct fuel as [|fuel]; [lia|]. cbn [recv_inner].
    assert (Q : p + (IN_FLIGHT_REQS - p) = 4) by (unfold IN_FLIGHT_REQS; lia). rewrite Q.
    destruct v as [d0|e three].
    + assert (d0 = d /\ pre = []) as [-> ->].
      { destruct pre as [|[d1|] pre]; [injection E as ->; auto|discriminate Dp|discriminate E]. }
      cbn [flat_map on_queue app]. injection E as ->. exists 3, halts, post, [], [AMain 4]. repeat split; auto.
    + cbn [flat_map on_queue app]. rewrite <- app_assoc. apply Forall_cons_iff in W. destruct W as [[We L] W].
      destruct F as [Fe F].
      assert (R : (match e with Stall | Unknown => S errs <=? MAX_STALL_RETRIES | Cancelled | Disconnected | Fault => false end) = true).
      { destruct We as [-> | ->]; apply Nat.leb_le; unfold MAX_STALL_RETRIES; lia. }
      rewrite R. change (IN_FLIGHT_REQS - 1) with 3. rewrite drain_three by auto.
      assert (HH : hd true halts = true) by (destruct halts as [|h hs]; [reflexivity|apply H; left; reflexivity]). rewrite HH.
      destruct pre as [|v pre]; [discriminate E|]. injection E as <- E.
      destruct (IH fuel 0 (S errs) tl (List.tl halts)) with (d := d) (r := vs) as (p' & h' & post' & pre' & aw & E' & Dp' & Hp' & Hh' & X);
        auto with nocore; try exact eq_refl; try lia; try (intros h Hh; apply H; destruct halts; [destruct Hh|right; exact Hh]);
        try (exists pre, post; split; [exact E|exact Dp]).
      { cbn [flat_map on_queue app] in Hf. rewrite <- app_assoc in Hf. cbn [length] in Hf. rewrite app_length in Hf. lia. }
      rewrite X. exists p', h', post', (Recovered e three :: pre'). eexists. split; [cbn [app]; now rewrite <- E'|]. repeat split; auto.
Qed.

(** Exactly which transfers are lost: every transfer that completes successfully is handed up, in order,
    except the three that complete after each error that the host recovers from. *)
Theorem C55_lost_iff_partial :
  forall vs n pending errs halts,
    pending <= 4 -> Forall well_formed vs -> few_errors errs vs ->
    (forall h, In h halts -> h = true) -> length vs <= n ->
    recv_all n pending errs (flat_map on_queue vs) halts = delivered vs.
Proof.
  intros vs n. revert vs. induction n as [|n IH]; intros vs p errs halts Hp W F H Hn.
  - destruct vs; [reflexivity|cbn in Hn; lia].
  - cbn [recv_all].
    assert (C : delivered vs = [] \/ exists d pre post, vs = pre ++ Completed d :: post /\ delivered pre = []).
    { clear. induction vs as [|[d|e three] vs IH]; [auto| |].
      - right. exists d, [], vs. auto.
      - destruct IH as [D|(d & pre & post & -> & D)]; [left; exact D|]. right. exists d, (Recovered e three :: pre), post. auto. }
    destruct C as [D|(d & pre & post & E & D)].
    + assert (X : forall fuel p errs halts, Forall well_formed vs -> few_errors errs vs -> p <= 4 -> (forall h, In h halts -> h = true) ->
        length (flat_map on_queue vs) < fuel ->
        exists p' e' c' h' aw, recv_inner fuel p errs (flat_map on_queue vs) halts = (NWaiting, p', e', c', h', aw)).
      { clear - D. induction vs as [|[d|e three] vs IH]; intros fuel p errs halts W F Hp H Hf.
        - destruct fuel; [lia|]. cbn [flat_map recv_inner]. replace (p + (IN_FLIGHT_REQS - p)) with 4 by (unfold IN_FLIGHT_REQS; lia).
          do 5 eexists. reflexivity.
        - discriminate D.
        - destruct fuel; [lia|]. cbn [flat_map on_queue recv_inner app]. replace (p + (IN_FLIGHT_REQS - p)) with 4 by (unfold IN_FLIGHT_REQS; lia).
          apply Forall_cons_iff in W. destruct W as [[We L] W]. destruct F as [Fe F].
          assert (R : (match e with Stall | Unknown => S errs <=? MAX_STALL_RETRIES | Cancelled | Disconnected | Fault => false end) = true).
          { destruct We as [-> | ->]; apply Nat.leb_le; unfold MAX_STALL_RETRIES; lia. }
          rewrite R. change (IN_FLIGHT_REQS - 1) with 3. rewrite drain_three by auto.
          assert (HH : hd true halts = true) by (destruct halts as [|h hs]; [reflexivity|apply H; left; reflexivity]). rewrite HH.
          destruct (IH D fuel 0 (S errs) (List.tl halts) W F) as (p' & e' & c' & h' & aw & X);
            [lia|intros h Hh; apply H; destruct halts; [destruct Hh|right; exact Hh]| |].
          { cbn [flat_map on_queue app] in Hf. cbn [length] in Hf. rewrite app_length in Hf. lia. }
          rewrite X. do 5 eexists. reflexivity. }
      destruct (X (S (length (flat_map on_queue vs))) p errs halts W F Hp H ltac:(lia)) as (p' & e' & c' & h' & aw & R).
      unfold recv. rewrite R. now rewrite D.
    + destruct (recv_more_fuel vs (S (length (flat_map on_queue vs))) p errs [] halts Hp) with (d := d) (r := vs)
        as (p' & h' & post' & pre' & aw & E' & D' & Hp' & Hh' & R); auto; [rewrite app_nil_r; lia|exists pre, post; auto|].
      unfold recv. rewrite !app_nil_r in R. rewrite R.
      assert (Fp : few_errors 0 post').
      { subst vs. clear - F E' D'. rewrite E' in F. clear E'. revert errs F. induction pre' as [|[d1|e three] pre' IH]; intros errs F; [exact F|discriminate D'|].
        destruct F as [_ F]. eapply IH; eauto. }
      rewrite IH; auto.
      * rewrite E'. unfold delivered in *. rewrite flat_map_app. cbn [flat_map]. rewrite D'. reflexivity.
      * rewrite E' in W. apply Forall_app in W. destruct W as [_ W]. now apply Forall_inv_tail in W.
      * rewrite E' in Hn. rewrite app_length in Hn. cbn [length] in Hn. lia.
Qed.
Print Assumptions C55_lost_iff_partial.

Example C55_lost_iff_ex :
  let vs := [Completed [1]; Recovered Stall [COk [7]; CErr Cancelled; CErr Cancelled]; Completed [2];
             Recovered Unknown [CErr Cancelled; COk [8]; CErr Fault]; Completed [3]]%N in
  Forall well_formed vs /\ few_errors 0 vs /\ recv_all 5 0 0 (flat_map on_queue vs) [true; true] = [[1]; [2]; [3]]%N.
Proof.
  split; [|split; [|vm_compute; reflexivity]].
  - repeat (apply Forall_cons; [cbn; auto|]). apply Forall_nil.
  - cbn. repeat split; lia.
Qed.
