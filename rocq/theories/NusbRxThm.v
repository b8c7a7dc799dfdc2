(** Property theorems C48 and C55: host USB receive recovery. *)
From Coq Require Import NArith List Bool Arith Lia.
From Verif Require Import NusbRxModel.
Import ListNotations.

Definition is_stall (e : TransferError) : Prop := e = Stall \/ e = Unknown.

(** A round of recovery: a stall and the completions joined after it. *)
Definition stall_round (r : list Completion) : Prop :=
  exists e a b c, is_stall e /\ r = [CErr e; a; b; c].

Lemma hydrate p : p <= 4 -> p + (IN_FLIGHT_REQS - p) = 4.
Proof. unfold IN_FLIGHT_REQS. lia. Qed.

(** *** In-flight requests *)
Definition await_ok (a : Await) : Prop :=
  match a with AMain n => n = 4 | ADrain n => 1 <= n <= 3 end.

Lemma drain_ok n : forall p comps, n <= p -> p <= 3 ->
  let '(r, p', c', aw) := drain_requests n p comps in
  r <> Some NPanic /\ p' <= p /\ Forall await_ok aw /\ length c' <= length comps /\
  (forall x, r = Some x -> x = NWaiting /\ c' = []) /\ (r = None -> p' = p - n).
Proof.
  induction n as [|n IH]; intros p comps Hn Hp; cbn [drain_requests].
  - repeat split; auto; try discriminate; lia.
  - destruct p as [|p]; [lia|]. destruct comps as [|c comps].
    + split; [discriminate|]. split; [lia|]. split; [apply Forall_cons; [cbn; lia|apply Forall_nil]|]. split; [cbn; lia|].
      split; [intros x [= <-]; auto|discriminate].
    + specialize (IH p comps ltac:(lia) ltac:(lia)). destruct (drain_requests n p comps) as [[[r p'] c'] aw].
      destruct IH as (A & B & C & D & E & F).
      split; [exact A|]. split; [lia|]. split; [apply Forall_cons; [cbn; lia|auto]|].
      split; [cbn; lia|]. split; [exact E|]. intros Hr. specialize (F Hr). lia.
Qed.

Lemma recv_ok fuel : forall p errs comps halts, p <= 4 -> length comps < fuel ->
  let '(r, p', errs', c', h', aw) := recv_inner fuel p errs comps halts in
  r <> NPanic /\ r <> NFuel /\ p' <= 4 /\ Forall await_ok aw.
Proof.
  induction fuel as [|fuel IH]; intros p errs comps halts Hp Hf; [lia|].
  cbn [recv_inner]. rewrite hydrate by auto. destruct comps as [|[d|e] tl].
  - repeat split; try discriminate; try lia. repeat constructor.
  - repeat split; try discriminate; try lia. repeat constructor.
  - cbn [length] in Hf.
    set (rc := match e with Stall | Unknown => _ | _ => _ end). destruct rc.
    2: { repeat split; try discriminate; try lia. repeat constructor. }
    change (IN_FLIGHT_REQS - 1) with 3. pose proof (drain_ok 3 3 tl ltac:(lia) ltac:(lia)) as D.
    destruct (drain_requests 3 3 tl) as [[[r p2] c2] aw]. destruct D as (D1 & D2 & D3 & D4 & D5 & D6).
    destruct r as [r|].
    + destruct (D5 r eq_refl) as [-> _]. repeat split; try discriminate; try lia. constructor; [reflexivity|auto].
    + destruct (hd true halts).
      * specialize (IH p2 (S errs) c2 (List.tl halts) ltac:(lia) ltac:(lia)).
        destruct (recv_inner fuel p2 (S errs) c2 (List.tl halts)) as [[[[[r' p3] e'] c'] h'] aw'].
        destruct IH as (A & B & C & D). repeat split; auto. constructor; [reflexivity|]. apply Forall_app; auto.
      * repeat split; try discriminate; try lia. constructor; [reflexivity|auto].
Qed.

(** ** C48 *)

(** Whatever the completions: every receive waits with exactly four requests in
    flight, never on an empty queue (so it cannot panic); and it leaves at most
    four pending, so that the same holds for the next call. *)
Theorem C48_in_flight :
  forall pending errs comps halts, pending <= 4 ->
    let '(r, pending', _, _, _, awaits) := recv pending errs comps halts in
    r <> NPanic /\ r <> NFuel /\ pending' <= 4 /\
    Forall (fun a => match a with AMain n => n = 4 | ADrain n => 1 <= n <= 3 end) awaits.
Proof. intros pending errs comps halts H. apply recv_ok; auto. Qed.
Print Assumptions C48_in_flight.

(** Enough fuel gives the same answer. *)
Lemma stall_step fuel p errs e a b c rest halts : is_stall e -> p <= 4 -> errs < 10 ->
  exists aw,
  recv_inner (S fuel) p errs ([CErr e; a; b; c] ++ rest) (true :: halts) =
  (let '(r', p3, errs', c', h', aw') := recv_inner fuel 0 (S errs) rest halts in
   (r', p3, errs', c', h', aw ++ aw')).
Proof.
  intros He Hp Hl. exists (AMain 4 :: [ADrain 3; ADrain 2; ADrain 1]).
  cbn [recv_inner]. rewrite hydrate by auto. cbn [app].
  assert (R : match e with Stall | Unknown => S errs <=? MAX_STALL_RETRIES | Cancelled | Disconnected | Fault => false end = true).
  { unfold MAX_STALL_RETRIES. destruct He as [-> | ->]; apply Nat.leb_le; lia. }
  rewrite R. cbn [IN_FLIGHT_REQS Nat.sub drain_requests hd List.tl].
  destruct (recv_inner fuel 0 (S errs) rest halts) as [[[[[r' p3] e'] c'] h'] aw']. reflexivity.
Qed.

Lemma recovery fuel rounds : forall p errs comps halts k,
  Forall stall_round rounds -> p <= 4 -> errs + length rounds <= 10 -> k = length rounds ->
  exists p' aw, p' <= 4 /\
  recv_inner (k + fuel) p errs (concat rounds ++ comps) (repeat true k ++ halts) =
  (let '(r', p3, errs', c', h', aw') := recv_inner fuel p' (errs + k) comps halts in
   (r', p3, errs', c', h', aw ++ aw')).
Proof.
  induction rounds as [|r rounds IH]; intros p errs comps halts k F Hp Hl ->.
  - exists p, []. cbn. rewrite Nat.add_0_r. split; auto.
    destruct (recv_inner fuel p errs comps halts) as [[[[[? ?] ?] ?] ?] ?]. reflexivity.
  - inversion F as [|? ? (e & a & b & c & He & ->) F']; subst. cbn [length] in *.
    cbn [concat]. rewrite <- app_assoc. cbn [repeat]. cbn [Nat.add].
    destruct (stall_step (length rounds + fuel) p errs e a b c (concat rounds ++ comps) (repeat true (length rounds) ++ halts) He Hp ltac:(lia)) as (aw & E).
    change ((true :: repeat true (length rounds)) ++ halts) with (true :: repeat true (length rounds) ++ halts).
    rewrite E.
    destruct (IH 0 (S errs) comps halts (length rounds) F' ltac:(lia) ltac:(lia) eq_refl) as (p' & aw' & Hp' & E').
    rewrite E'. exists p', (aw ++ aw'). split; auto.
    replace (errs + S (length rounds)) with (S errs + length rounds) by lia.
    destruct (recv_inner fuel p' (S errs + length rounds) comps halts) as [[[[[? ?] ?] ?] ?] ?].
    now rewrite app_assoc.
Qed.

Lemma rounds_len rounds : Forall stall_round rounds -> length (concat rounds) = 4 * length rounds.
Proof.
  induction 1 as [|r rounds (e & a & b & c & _ & ->) F IH]; cbn [concat length]; auto.
  rewrite app_length, IH. cbn. lia.
Qed.

(** Up to ten consecutive stalls are survived: the next good transfer is
    returned and the count starts over. *)
Theorem C48_recovers :
  forall pending errs rounds d rest halts,
    pending <= 4 -> Forall stall_round rounds -> errs + length rounds <= 10 ->
    let '(r, _, errs', comps', _, _) :=
      recv pending errs (concat rounds ++ COk d :: rest) (repeat true (length rounds) ++ halts) in
    r = NGot d /\ errs' = 0 /\ comps' = rest.
Proof.
  intros p errs rounds d rest halts Hp F L. unfold recv.
  replace (S (length (concat rounds ++ COk d :: rest)))
    with (length rounds + (S (3 * length rounds + length (COk d :: rest)))).
  2: { rewrite app_length, rounds_len by auto. lia. }
  destruct (recovery (S (3 * length rounds + length (COk d :: rest))) rounds p errs (COk d :: rest) halts _ F Hp L eq_refl)
    as (p' & aw & Hp' & E).
  rewrite E. cbn [recv_inner]. rewrite hydrate by auto. auto.
Qed.
Print Assumptions C48_recovers.

(** The eleventh consecutive stall is fatal. *)
Theorem C48_gives_up :
  forall pending errs rounds e rest halts,
    pending <= 4 -> Forall stall_round rounds -> errs + length rounds = 10 -> is_stall e ->
    let '(r, _, _, _, _, _) :=
      recv pending errs (concat rounds ++ CErr e :: rest) (repeat true (length rounds) ++ halts) in
    r = NErr e.
Proof.
  intros p errs rounds e rest halts Hp F L He. unfold recv.
  replace (S (length (concat rounds ++ CErr e :: rest)))
    with (length rounds + (S (3 * length rounds + length (CErr e :: rest)))).
  2: { rewrite app_length, rounds_len by auto. lia. }
  destruct (recovery (S (3 * length rounds + length (CErr e :: rest))) rounds p errs (CErr e :: rest) halts _ F Hp ltac:(lia) eq_refl)
    as (p' & aw & Hp' & E).
  rewrite E. cbn [recv_inner]. rewrite hydrate by auto. rewrite L.
  destruct He as [-> | ->]; reflexivity.
Qed.
Print Assumptions C48_gives_up.

(** Any other error, or a failure to clear the stall, is fatal at once. *)
Theorem C48_other_errors :
  forall pending errs e rest halts, pending <= 4 -> ~ is_stall e ->
    let '(r, _, _, comps', _, _) := recv pending errs (CErr e :: rest) halts in r = NErr e /\ comps' = rest.
Proof.
  intros p errs e rest halts Hp N. unfold recv. cbn [recv_inner]. rewrite hydrate by auto.
  unfold is_stall in N. destruct e; try (exfalso; apply N; auto; fail); auto.
Qed.
Print Assumptions C48_other_errors.
Theorem C48_halt_failure :
  forall pending errs e a b c rest halts, pending <= 4 -> is_stall e ->
    let '(r, _, _, _, _, _) := recv pending errs (CErr e :: a :: b :: c :: rest) (false :: halts) in r = NErr e.
Proof.
  intros p errs e a b c rest halts Hp He. unfold recv. cbn [length recv_inner]. rewrite hydrate by auto.
  set (x := S (S (S _))). destruct He as [-> | ->]; destruct (S errs <=? MAX_STALL_RETRIES); reflexivity.
Qed.
Print Assumptions C48_halt_failure.

(** Conversely, an error is returned only in these cases: the error returned is
    the last main completion, and if it is a stall then the count exceeded ten or
    clearing failed. *)
Theorem C48_error_only_if :
  forall fuel pending errs comps halts r p' errs' c' h' aw,
    pending <= 4 -> (forall x, In x halts -> x = true) ->
    recv_inner fuel pending errs comps halts = (r, p', errs', c', h', aw) ->
    forall e, r = NErr e -> ~ is_stall e \/ 10 < errs'.
Proof.
  induction fuel as [|fuel IH]; intros p errs comps halts r p' errs' c' h' aw Hp Hh H e ->; [discriminate|].
  cbn [recv_inner] in H. rewrite hydrate in H by auto. destruct comps as [|[d|e0] tl]; try discriminate.
  set (rc := match e0 with Stall | Unknown => _ | _ => _ end) in H. destruct rc eqn:Rc.
  - change (IN_FLIGHT_REQS - 1) with 3 in H. pose proof (drain_ok 3 3 tl ltac:(lia) ltac:(lia)) as D.
    destruct (drain_requests 3 3 tl) as [[[r2 p2] c2] aw2]. destruct D as (_ & D2 & _ & _ & D5 & _).
    destruct r2 as [r2|]; [destruct (D5 r2 eq_refl) as [-> _]; discriminate|].
    destruct (hd true halts) eqn:Hhd.
    + destruct (recv_inner fuel p2 (S errs) c2 (List.tl halts)) as [[[[[r' p3] e'] cc] hh] aw'] eqn:E.
      injection H as -> <- <- <- <- <-. refine (IH p2 _ _ _ _ _ _ _ _ _ _ _ E e eq_refl); [lia|].
      intros x Hx. apply Hh. destruct halts; [destruct Hx|right; exact Hx].
    + destruct halts as [|x halts]; [discriminate|]. cbn in Hhd. subst x.
      specialize (Hh false (or_introl eq_refl)). discriminate.
  - injection H as -> <- <- <- <- <-. unfold rc in Rc.
    destruct e; try (left; intros [E|E]; discriminate); right; apply Nat.leb_gt in Rc; unfold MAX_STALL_RETRIES in Rc; lia.
Qed.
Print Assumptions C48_error_only_if.

Example C48_nontrivial :
  Forall stall_round [[CErr Stall; CErr Cancelled; COk [7]; CErr Cancelled]; [CErr Unknown; CErr Cancelled; CErr Cancelled; CErr Cancelled]]%N /\
  recv 0 8 [CErr Stall; CErr Cancelled; COk [7]; CErr Cancelled; CErr Unknown; CErr Cancelled; CErr Cancelled; CErr Cancelled; COk [1]; COk [2]]%N [true; true]
  = (NGot [1]%N, 3, 0, [COk [2]]%N, [],
     [AMain 4; ADrain 3; ADrain 2; ADrain 1; AMain 4; ADrain 3; ADrain 2; ADrain 1; AMain 4]) .
Proof.
  split; [|vm_compute; reflexivity].
  apply Forall_cons; [|apply Forall_cons; [|apply Forall_nil]]; unfold stall_round, is_stall;
    do 4 eexists; (split; [|reflexivity]); auto.
Qed.

(** ** C55 *)

(** Repeated receives until the completions run out or an error is returned. *)
Fixpoint recv_all (n pending errs : nat) (comps : list Completion) (halts : list bool) : list (list N) :=
  match n with
  | O => []
  | S n' =>
    let '(r, p, e, c, h, _) := recv pending errs comps halts in
    match r with NGot d => d :: recv_all n' p e c h | _ => [] end
  end.
Definition good (comps : list Completion) : list (list N) :=
  flat_map (fun c => match c with COk d => [d] | CErr _ => [] end) comps.

(** Full claim: every transfer that completes successfully is handed up, even
    when a stall is recovered from.  False: completions joined during recovery
    are dropped even when they carry data. *)
Theorem C55_recovery_loses_refuted :
  exists comps halts n, length comps <= n /\
    good comps = [[7%N]; [1%N]] /\ recv_all n 0 0 comps halts = [[1%N]].
Proof.
  exists [CErr Stall; COk [7]%N; CErr Cancelled; CErr Cancelled; COk [1]%N], [true], 5.
  repeat split; vm_compute; auto.
Qed.
Print Assumptions C55_recovery_loses_refuted.

(** What holds: without a transfer error every transfer is handed up, once and
    in order. *)
Lemma recv_all_good ds : forall n p errs halts, p <= 4 -> length ds <= n ->
  recv_all n p errs (map COk ds) halts = ds.
Proof.
  induction ds as [|d ds IH]; intros n p errs halts Hp Hn.
  - destruct n; auto. cbn [recv_all]. unfold recv. cbn [map length recv_inner]. rewrite hydrate by auto. reflexivity.
  - destruct n; [cbn in Hn; lia|]. cbn [recv_all]. unfold recv. cbn [map length recv_inner].
    rewrite hydrate by auto. f_equal. apply IH; cbn in Hn; lia.
Qed.
Theorem C55_no_errors_lossless_partial :
  forall ds n pending errs halts, pending <= 4 -> length ds <= n ->
    recv_all n pending errs (map COk ds) halts = ds.
Proof. intros; now apply recv_all_good. Qed.
Print Assumptions C55_no_errors_lossless_partial.

(** With errors, what is handed up is a subsequence, in order, of the transfers
    that completed: nothing is duplicated, reordered or made up. *)
Inductive subseq {A} : list A -> list A -> Prop :=
| sub_nil : forall l, subseq [] l
| sub_skip : forall x a b, subseq a b -> subseq a (x :: b)
| sub_take : forall x a b, subseq a b -> subseq (x :: a) (x :: b).
Lemma subseq_skip_app {A} (p a b : list A) : subseq a b -> subseq a (p ++ b).
Proof. induction p; cbn; auto using sub_skip. Qed.

Lemma drain_suffix n : forall p comps r p' c' aw,
  drain_requests n p comps = (r, p', c', aw) -> exists pre, comps = pre ++ c'.
Proof.
  induction n as [|n IH]; intros p comps r p' c' aw H; cbn [drain_requests] in H.
  - injection H as <- <- <- <-. now exists [].
  - destruct p; [injection H as <- <- <- <-; now exists []|].
    destruct comps as [|c comps]; [injection H as <- <- <- <-; now exists []|].
    destruct (drain_requests n p comps) as [[[r1 p1] c1] aw1] eqn:E. injection H as <- <- <- <-.
    destruct (IH _ _ _ _ _ _ E) as [pre ->]. now exists (c :: pre).
Qed.
Lemma recv_suffix fuel : forall p errs comps halts r p' errs' c' h' aw,
  recv_inner fuel p errs comps halts = (r, p', errs', c', h', aw) ->
  exists pre, comps = pre ++ c' /\ forall d, r = NGot d -> exists pre', pre = pre' ++ [COk d].
Proof.
  induction fuel as [|fuel IH]; intros p errs comps halts r p' errs' c' h' aw H; cbn [recv_inner] in H.
  - injection H as <- <- <- <- <- <-. exists []. split; auto. discriminate.
  - destruct (p + (IN_FLIGHT_REQS - p)) as [|q].
    { injection H as <- <- <- <- <- <-. exists []. split; auto. discriminate. }
    destruct comps as [|[d|e] tl].
    + injection H as <- <- <- <- <- <-. exists []. split; auto. discriminate.
    + injection H as <- <- <- <- <- <-. exists [COk d]. split; auto. intros d' [= <-]. now exists [].
    + set (rc := match e with Stall | Unknown => _ | _ => _ end) in H. destruct rc.
      2: { injection H as <- <- <- <- <- <-. exists [CErr e]. split; auto. discriminate. }
      destruct (drain_requests (IN_FLIGHT_REQS - 1) q tl) as [[[r2 p2] c2] aw2] eqn:D.
      assert (Hr2 : forall d, r2 <> Some (NGot d)).
      { clear -D. revert D. generalize (IN_FLIGHT_REQS - 1) as n. intros n D d. revert q tl r2 p2 c2 aw2 D.
        induction n as [|n IHn]; intros q tl r2 p2 c2 aw2 D; cbn [drain_requests] in D.
        - injection D as <- <- <- <-. discriminate.
        - destruct q; [injection D as <- <- <- <-; discriminate|].
          destruct tl; [injection D as <- <- <- <-; discriminate|].
          destruct (drain_requests n q tl) as [[[r1 p1] c1] aw1] eqn:E. injection D as <- <- <- <-. eapply IHn; eauto. }
      destruct (drain_suffix _ _ _ _ _ _ _ D) as [pre ->].
      destruct r2 as [r2|].
      { injection H as <- <- <- <- <- <-. exists (CErr e :: pre). split; auto. intros d ->. now destruct (Hr2 d). }
      destruct (hd true halts).
      2: { injection H as <- <- <- <- <- <-. exists (CErr e :: pre). split; auto. discriminate. }
      destruct (recv_inner fuel p2 (S errs) c2 (List.tl halts)) as [[[[[r' p3] e'] cc] hh] aw'] eqn:E.
      injection H as <- <- <- <- <- <-. destruct (IH _ _ _ _ _ _ _ _ _ _ E) as (pre2 & -> & G).
      exists (CErr e :: pre ++ pre2). split; [cbn; now rewrite app_assoc|].
      intros d Hd. destruct (G d Hd) as [pre3 ->]. exists (CErr e :: pre ++ pre3). cbn. now rewrite app_assoc.
Qed.
Theorem C55_subsequence_partial :
  forall n pending errs comps halts, subseq (recv_all n pending errs comps halts) (good comps).
Proof.
  induction n as [|n IH]; intros p errs comps halts; cbn [recv_all]; [constructor|].
  destruct (recv p errs comps halts) as [[[[[r p'] e'] c'] h'] aw] eqn:E. destruct r; try constructor.
  destruct (recv_suffix _ _ _ _ _ _ _ _ _ _ _ E) as (pre & -> & G). destruct (G data eq_refl) as [pre' ->].
  unfold good. rewrite !flat_map_app. cbn [flat_map]. rewrite <- app_assoc. apply subseq_skip_app. cbn.
  apply sub_take. apply IH.
Qed.
Print Assumptions C55_subsequence_partial.
