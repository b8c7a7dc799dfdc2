(** Property theorems C83 and C84: the example firmware. *)
From Coq Require Import NArith ZArith List Bool Arith Lia.
From Verif Require Import WorkbookModel WorkbookSpec.
Import ListNotations.

Lemma run_app a : forall b s, accel_run (a ++ b) s =
  match accel_run a s with
  | Some (s1, o1) => match accel_run b s1 with Some (s2, o2) => Some (s2, o1 ++ o2) | None => None end
  | None => None
  end.
Proof.
  induction a as [|l a IH]; intros b s; cbn [app accel_run]; [destruct (accel_run b s) as [[? ?]|]; reflexivity|].
  destruct (accel_step l s) as [[s1 o]|]; [|reflexivity]. rewrite IH.
  destruct (accel_run a s1) as [[s2 o2]|]; [|reflexivity]. destruct (accel_run b s2) as [[s3 o3]|]; [|reflexivity].
  now rewrite app_assoc.
Qed.

(** Induction on the steps of a run, last step last. *)
Lemma run_ind (P : list AccelLabel -> Accel -> list Obs -> Prop) :
  P [] accel_new [] ->
  (forall ls s os l s' o, accel_run ls accel_new = Some (s, os) -> P ls s os -> accel_step l s = Some (s', o) ->
     P (ls ++ [l]) s' (os ++ o)) ->
  forall ls s os, accel_run ls accel_new = Some (s, os) -> P ls s os.
Proof.
  intros P0 PS ls. induction ls as [|l ls IH] using rev_ind; intros s os R.
  - injection R as <- <-. exact P0.
  - rewrite run_app in R. destruct (accel_run ls accel_new) as [[s1 o1]|] eqn:R1; [|discriminate].
    cbn [accel_run] in R. destruct (accel_step l s1) as [[s2 o2]|] eqn:E; [|discriminate]. injection R as <- <-.
    rewrite app_nil_r. eapply PS; eauto.
Qed.

Definition streaming (p : Pc) : option N :=
  match p with AtTick n | AtRead n | AtPublish n _ => Some n | _ => None end.
Definition confirmed (p : Pc) : option N :=
  match p with AtRange _ => Some 0%N | _ => streaming p end.
Definition holding (p : Pc) : bool := match p with NoTask | AtLock _ _ => false | _ => true end.
Definition pending (s : Accel) : list Acceleration := match pc s with AtPublish _ v => [v] | _ => [] end.

(** The facts about [os], seen so far, and the state. *)
Record Inv (ls : list AccelLabel) (s : Accel) (os : list Obs) : Prop := {
  v_lock : locked s = holding (pc s);
  v_stop : stop s = true <-> told os;
  v_run : pc s <> NoTask <-> running os;
  v_conf : forall n, confirmed (pc s) = Some n -> exists a q b, os = a ++ Started q :: b /\ no_start b /\
             n = (N.of_nat (samples b) mod 256)%N /\ ~ In Ended b;
  v_read : readings ls = attempted os ++ pending s
}.

Lemma snoc_split {A} (l : list A) x a y b : l ++ [x] = a ++ y :: b ->
  (b = [] /\ l = a /\ x = y) \/ exists b', b = b' ++ [x] /\ l = a ++ y :: b'.
Proof.
  intros E. destruct b as [|z b] using rev_ind.
  - left. apply app_inj_tail in E. tauto.
  - right. exists b. rewrite app_comm_cons, app_assoc in E. apply app_inj_tail in E. destruct E as [-> ->]. auto.
Qed.

Lemma told_snoc os o : told (os ++ [o]) <-> o = StopAnswer true \/ (told os /\ o <> Ended).
Proof.
  split.
  - intros (a & b & E & N). apply snoc_split in E. destruct E as [(-> & -> & ->)|(b' & -> & ->)]; [auto|].
    right. split.
    + exists a, b'. split; auto. intros X. apply N, in_app_iff. auto.
    + intros ->. apply N, in_app_iff. right. now left.
  - intros [->|[(a & b & -> & N) D]].
    + exists os, []. auto.
    + exists a, (b ++ [o]). split; [now rewrite <- app_assoc|]. intros X. apply in_app_iff in X. destruct X as [X|[X|[]]]; auto.
Qed.
Lemma running_snoc os o : running (os ++ [o]) <->
  (exists q, o = Accepted q) \/ (running os /\ o <> Ended /\ forall q, o <> StartLost q).
Proof.
  split.
  - intros (a & q & b & E & N & L). apply snoc_split in E. destruct E as [(-> & -> & ->)|(b' & -> & ->)]; [eauto|].
    right. split; [|split].
    + exists a, q, b'. split; auto. split; [|intros q' X; apply (L q')]; try (intros X; apply N); apply in_app_iff; auto.
    + intros ->. apply N, in_app_iff. right. now left.
    + intros q' ->. apply (L q'), in_app_iff. right. now left.
  - intros [[q ->]|((a & q & b & -> & N & L) & D & D2)].
    + exists os, q, []. auto.
    + exists a, q, (b ++ [o]). split; [now rewrite <- app_assoc|]. split; [|intros q'];
        intros X; apply in_app_iff in X; destruct X as [X|[X|[]]]; auto; [eapply L|eapply D2]; eauto.
Qed.
Lemma told_nil : ~ told [].
Proof. intros (a & b & E & _). destruct a; discriminate E. Qed.
Lemma running_nil : ~ running [].
Proof. intros (a & q & b & E & _). destruct a; discriminate E. Qed.

Lemma samples_app a b : samples (a ++ b) = samples a + samples b.
Proof. unfold samples. now rewrite filter_app, app_length. Qed.
Lemma attempted_app a b : attempted (a ++ b) = attempted a ++ attempted b.
Proof. apply flat_map_app. Qed.
Lemma readings_app a b : readings (a ++ b) = readings a ++ readings b.
Proof. apply flat_map_app. Qed.

Lemma conf_more n os (o : list Obs) :
  (exists a q b, os = a ++ Started q :: b /\ no_start b /\ n = (N.of_nat (samples b) mod 256)%N /\ ~ In Ended b) ->
  no_start o -> ~ In Ended o ->
  exists a q b, os ++ o = a ++ Started q :: b /\ no_start b /\ ((n + N.of_nat (samples o)) mod 256 = N.of_nat (samples b) mod 256)%N /\ ~ In Ended b.
Proof.
  intros (a & q & b & -> & Nb & -> & E) No Eo. exists a, q, (b ++ o). rewrite <- app_assoc. split; [reflexivity|].
  split; [intros q' X; apply in_app_iff in X; destruct X; [eapply Nb|eapply No]; eauto|].
  split; [|intros X; apply in_app_iff in X; tauto].
  rewrite samples_app, Nat2N.inj_add. now rewrite N.add_mod_idemp_l by discriminate.
Qed.

Lemma confirmed_lt ls s os : accel_run ls accel_new = Some (s, os) -> forall n, confirmed (pc s) = Some n -> (n < 256)%N.
Proof.
  revert ls s os. refine (run_ind (fun _ s _ => forall n, confirmed (pc s) = Some n -> (n < 256)%N) _ _); [discriminate|].
  intros ls s os l s' o _ IH E n C. unfold accel_step in E. destruct (halted s); [discriminate|]. destruct l as [q rq| |w].
  - destruct (pc s) eqn:P; injection E as <- <-; cbn in C; try discriminate; apply IH; rewrite ?P in *; auto.
  - injection E as <- <-. apply IH. exact C.
  - unfold poll in E. destruct (pc s) eqn:P, w; try discriminate; cbn in IH; unfold check in E;
      try (destruct (locked s)); try (destruct (stop s)); try discriminate; injection E as <- <-; cbn in C; try rewrite P in C; cbn in C; try discriminate;
      try (injection C as <-); try (apply IH; reflexivity); try lia; try (apply N.mod_lt; discriminate).
Qed.

Lemma reach ls s os : accel_run ls accel_new = Some (s, os) -> Inv ls s os.
Proof.
  revert ls s os. apply run_ind.
  { constructor; cbn; try reflexivity; try discriminate.
    - split; [discriminate|]. intros X. destruct (told_nil X).
    - split; [tauto|]. intros X. destruct (running_nil X). }
  intros ls s os l s' o R [V1 V2 V3 V4 V5] E. pose proof (confirmed_lt _ _ _ R) as Lt.
  unfold accel_step in E. destruct (halted s) eqn:Hh; [discriminate|].
  destruct l as [q rq| |w].
  - assert (Sm : readings (ls ++ [Start q rq]) = readings ls) by (rewrite readings_app; cbn; now rewrite app_nil_r).
    destruct (pc s) eqn:P; injection E as <- <-.
    1: { constructor; cbn [pc locked stop halted].
         - rewrite V1. reflexivity.
         - rewrite told_snoc, V2. split; [intros X; right; split; [exact X|discriminate]|]. intros [X|[X _]]; [discriminate X|exact X].
         - rewrite running_snoc. split; [eauto|]. intros _ X. discriminate X.
         - discriminate.
         - rewrite Sm, V5, attempted_app. unfold pending. rewrite P. cbn. now rewrite !app_nil_r. }
    all: constructor; rewrite ?P; auto.
    all: try (rewrite told_snoc, V2; split; [intros X; right; split; [exact X|discriminate]|]; intros [X|[X _]]; [discriminate X|exact X]).
    all: try (rewrite running_snoc; split; [intros X; right; rewrite <- V3; split; [discriminate|split; [discriminate|intros ? X'; discriminate X']]|
                                            intros _ X; discriminate X]).
    all: try (intros n C; discriminate C).
    all: try (rewrite Sm, V5, attempted_app; unfold pending; rewrite P; cbn; rewrite ?app_nil_r; reflexivity).
    all: intros n0 C; pose proof (Lt n0 C) as L; destruct (conf_more n0 os [Refused q] (V4 n0 C)) as (a & q' & b & E1 & E2 & E3 & E4);
      [intros ? [X|[]]; discriminate X|intros [X|[]]; discriminate X|];
      exists a, q', b; cbn [samples filter length] in E3; rewrite N.add_0_r, N.mod_small in E3 by exact L; auto.
  - assert (Sm : readings (ls ++ [Stop]) = readings ls) by (rewrite readings_app; cbn; now rewrite app_nil_r).
    injection E as <- <-. constructor; cbn [pc locked stop halted]; auto.
    + rewrite told_snoc. destruct (locked s) eqn:L.
      * split; auto.
      * rewrite V2. split; [intros X; right; split; [exact X|discriminate]|]. intros [X|[X _]]; [discriminate X|exact X].
    + rewrite running_snoc, <- V3. split; [intros X; right; split; [exact X|split; [discriminate|intros ? X'; discriminate X']]|].
      intros [[? X]|[X _]]; [discriminate X|exact X].
    + intros n C; pose proof (Lt n C) as L; destruct (conf_more n os [StopAnswer (locked s)] (V4 n C)) as (a & q' & b & E1 & E2 & E3 & E4);
      [intros ? [X|[]]; discriminate X|intros [X|[]]; discriminate X|];
      exists a, q', b; cbn [samples filter length] in E3; rewrite N.add_0_r, N.mod_small in E3 by exact L; auto.
    + rewrite Sm, V5, attempted_app. unfold pending. cbn. now rewrite !app_nil_r.
  - assert (Ts : forall x, x <> Ended -> x <> StopAnswer true -> (told (os ++ [x]) <-> told os)).
    { intros x D1 D2. rewrite told_snoc. split; [intros [X|[X _]]; [contradiction|exact X]|auto]. }
    assert (Te : ~ told (os ++ [Ended])).
    { rewrite told_snoc. intros [X|[_ X]]; [discriminate X|now apply X]. }
    assert (Te2 : forall x, ~ told (os ++ [x; Ended])).
    { intros x. change (os ++ [x; Ended]) with (os ++ ([x] ++ [Ended])). rewrite app_assoc, told_snoc. intros [X|[_ X]]; [discriminate X|now apply X]. }
    assert (Re2 : forall x, ~ running (os ++ [x; Ended])).
    { intros x. change (os ++ [x; Ended]) with (os ++ ([x] ++ [Ended])). rewrite app_assoc, running_snoc.
      intros [[q X]|(_ & X & _)]; [discriminate X|now apply X]. }
    assert (Rs : forall x, x <> Ended -> (forall q, x <> StartLost q) -> running os -> running (os ++ [x])).
    { intros x D1 D2 X. rewrite running_snoc. auto. }
    assert (Rd : forall x, readings (ls ++ [Poll x]) = readings ls ++ match x with WReading v => [v] | _ => [] end).
    { intros x. rewrite readings_app. destruct x; reflexivity. }
    unfold poll in E. destruct (pc s) as [|q rq|q rq|rq|n|n|n v] eqn:P, w as [| |r]; try discriminate E.
    + destruct (locked s) eqn:Lk; [discriminate|]. injection E as <- <-. rewrite app_nil_r. constructor; cbn [pc locked stop halted]; auto; try discriminate.
      * split; [intros _; apply V3; discriminate|intros _ X; discriminate X].
      * rewrite Rd, V5. unfold pending. rewrite P. cbn. now rewrite app_nil_r.
    + injection E as <- <-. constructor; cbn [pc locked stop halted]; auto; try discriminate.
      * rewrite Ts; [exact V2|discriminate..].
      * split; [intros _; apply Rs; [discriminate..|]; apply V3; discriminate|intros _ X; discriminate X].
      * intros n [= <-]. exists os, q, []. repeat split; auto. intros ? [].
      * rewrite Rd, V5, attempted_app. unfold pending. rewrite P. cbn. now rewrite !app_nil_r.
    + injection E as <- <-. constructor; cbn [pc locked stop halted]; auto; try discriminate.
      * rewrite Ts; [exact V2|discriminate..].
      * split; [intros X; destruct (X eq_refl)|]. rewrite running_snoc. intros [[q' X]|(_ & _ & X)]; [discriminate X|]. destruct (X q eq_refl).
      * rewrite Rd, V5, attempted_app. unfold pending. rewrite P. cbn. now rewrite !app_nil_r.
    + destruct (check 0 s) as [s1 o1] eqn:Ck. injection E as <- <-. unfold check in Ck. destruct (stop s) eqn:St.
      * injection Ck as <- <-. constructor; cbn [ending pc locked stop halted]; auto; try discriminate.
        -- split; [discriminate|]. intros X. destruct (Te2 _ X).
        -- split; [intros X; destruct (X eq_refl)|]. intros X. destruct (Re2 _ X).
        -- rewrite Rd, V5, attempted_app. unfold pending. rewrite P. cbn. now rewrite !app_nil_r.
      * injection Ck as <- <-. constructor; cbn [pc locked stop halted]; auto; try discriminate.
        -- rewrite Ts; [exact V2|discriminate..].
        -- split; [intros _; apply Rs; [discriminate..|]; apply V3; discriminate|intros _ X; discriminate X].
        -- intros n [= <-]. pose proof (V4 0%N eq_refl) as C. destruct (conf_more 0%N os [RangeSet G8] C) as (a & q' & b & E1 & E2 & E3 & E4);
             [intros ? [X|[]]; discriminate X|intros [X|[]]; discriminate X|]. exists a, q', b. auto.
        -- rewrite Rd, V5, attempted_app. unfold pending. rewrite P. cbn. now rewrite !app_nil_r.
    + injection E as <- <-. rewrite app_nil_r. constructor; cbn [pc locked stop halted]; auto; try discriminate.
      rewrite Rd, V5. unfold pending. rewrite P. cbn. now rewrite !app_nil_r.
    + injection E as <- <-. rewrite app_nil_r. constructor; cbn [pc locked stop halted]; auto; try discriminate.
      * split; [intros _; apply V3; discriminate|intros _ X; discriminate X].
      * rewrite Rd, V5. unfold pending. rewrite P. cbn. now rewrite !app_nil_r.
    + injection E as <- <-. rewrite app_nil_r. constructor; cbn [pc locked stop halted]; auto; try discriminate.
      rewrite Rd, V5. unfold pending. rewrite P. cbn. now rewrite !app_nil_r.
    + injection E as <- <-. rewrite app_nil_r. constructor; cbn [pc locked stop halted]; auto; try discriminate.
      * split; [intros _; apply V3; discriminate|intros _ X; discriminate X].
      * rewrite Rd, V5. unfold pending. rewrite P. cbn. now rewrite !app_nil_r.
    + destruct (check ((n + 1) mod 256) s) as [s1 o1] eqn:Ck. injection E as <- <-. unfold check in Ck. destruct (stop s) eqn:St.
      * injection Ck as <- <-. constructor; cbn [ending pc locked stop halted]; auto; try discriminate.
        -- split; [discriminate|]. intros X. destruct (Te2 _ X).
        -- split; [intros X; destruct (X eq_refl)|]. intros X. destruct (Re2 _ X).
        -- rewrite Rd, V5, attempted_app. unfold pending. rewrite P. cbn. now rewrite !app_nil_r.
      * injection Ck as <- <-. constructor; cbn [pc locked stop halted]; auto; try discriminate.
        -- rewrite Ts; [exact V2|discriminate..].
        -- split; [intros _; apply Rs; [discriminate..|]; apply V3; discriminate|intros _ X; discriminate X].
        -- intros n' [= <-]. pose proof (V4 n eq_refl) as C. destruct (conf_more n os [Sample n v] C) as (a & q' & b & E1 & E2 & E3 & E4);
             [intros ? [X|[]]; discriminate X|intros [X|[]]; discriminate X|]. exists a, q', b. auto.
        -- rewrite Rd, V5, attempted_app. unfold pending. rewrite P. cbn. now rewrite !app_nil_r.
    + injection E as <- <-. constructor; cbn [ending pc locked stop halted]; auto; try discriminate.
      * split; [discriminate|]. intros X. destruct (Te2 _ X).
      * split; [intros X; destruct (X eq_refl)|]. intros X. destruct (Re2 _ X).
      * rewrite Rd, V5, attempted_app. unfold pending. rewrite P. cbn. now rewrite !app_nil_r.
Qed.

Lemma app_split {A} (l : list A) : forall o a x b, l ++ o = a ++ x :: b ->
  (exists b', l = a ++ x :: b' /\ b = b' ++ o) \/ (exists a', a = l ++ a' /\ o = a' ++ x :: b).
Proof.
  induction l as [|h l IH]; intros o a x b E; [right; exists a; auto|].
  destruct a as [|g a]; injection E as <- E; [left; exists l; auto|].
  destruct (IH _ _ _ _ E) as [(b' & -> & ->)|(a' & -> & ->)]; [left; exists b'|right; exists a']; auto.
Qed.

(** What a step shows. *)
Lemma step_shows l s s' o : accel_step l s = Some (s', o) ->
  (l = Stop /\ o = [StopAnswer (locked s)] /\ pc s' = pc s /\ stop s' = (if locked s then true else stop s)) \/
  (exists q rq, l = Start q rq /\ pc s = NoTask /\ o = [Accepted q] /\ pc s' = AtLock q rq /\ stop s' = stop s) \/
  (exists q rq, l = Start q rq /\ pc s <> NoTask /\ o = [Refused q] /\ s' = s) \/
  (exists w, l = Poll w /\ poll w s = Some (s', o)).
Proof.
  unfold accel_step. destruct (halted s); [discriminate|]. destruct l as [q rq| |w]; intros E.
  - destruct (pc s) eqn:P; injection E as <- <-; [right; left|right; right; left..]; exists q, rq; rewrite ?P; repeat split; auto; discriminate.
  - injection E as <- <-. left. auto.
  - right. right. right. eauto.
Qed.

Lemma poll_shows w s s' o : poll w s = Some (s', o) ->
  (o = [] /\ stop s' = stop s) \/
  (exists q rq, pc s = AtReply q rq /\ o = [Started q] /\ pc s' = AtRange rq /\ stop s' = stop s) \/
  (exists q rq, pc s = AtReply q rq /\ o = [StartLost q] /\ pc s' = NoTask /\ stop s' = stop s) \/
  (exists rq, pc s = AtRange rq /\ stop s = true /\ o = [RangeSet G8; Ended] /\ pc s' = NoTask) \/
  (exists rq, pc s = AtRange rq /\ stop s = false /\ o = [RangeSet G8] /\ pc s' = AtTick 0 /\ stop s' = false) \/
  (exists n v, pc s = AtPublish n v /\ stop s = true /\ o = [Sample n v; Ended] /\ pc s' = NoTask) \/
  (exists n v, pc s = AtPublish n v /\ stop s = false /\ o = [Sample n v] /\ pc s' = AtTick ((n + 1) mod 256) /\ stop s' = false) \/
  (exists n v, pc s = AtPublish n v /\ o = [SampleLost n v; Ended] /\ pc s' = NoTask).
Proof.
  unfold poll, check. intros E. destruct (pc s) as [|q rq|q rq|rq|n|n|n v], w as [| |r]; try discriminate E.
  - destruct (locked s); [discriminate|]. injection E as <- <-. auto.
  - injection E as <- <-. right. left. exists q, rq. auto.
  - injection E as <- <-. do 2 right. left. exists q, rq. auto.
  - destruct (stop s) eqn:St; injection E as <- <-; [do 3 right; left|do 4 right; left]; exists rq; auto 6.
  - injection E as <- <-. auto.
  - injection E as <- <-. auto.
  - injection E as <- <-. auto.
  - injection E as <- <-. auto.
  - destruct (stop s) eqn:St; injection E as <- <-; [do 5 right; left|do 6 right; left]; exists n, v; auto 6.
  - injection E as <- <-. do 7 right. exists n, v. auto.
Qed.

(** *** C83 Every sample belongs to a confirmed stream

    A sample is published only after a start was confirmed, before that stream has ended, and the
    samples of a stream are numbered from zero, modulo 256. *)
Theorem C83_samples_numbered :
  forall ls s os, accel_run ls accel_new = Some (s, os) ->
  forall a n v b, os = a ++ Sample n v :: b ->
  exists a1 q a2, a = a1 ++ Started q :: a2 /\ no_start a2 /\ ~ In Ended a2 /\ n = (N.of_nat (samples a2) mod 256)%N.
Proof.
  refine (run_ind (fun _ _ os => forall a n v b, os = a ++ Sample n v :: b ->
    exists a1 q a2, a = a1 ++ Started q :: a2 /\ no_start a2 /\ ~ In Ended a2 /\ n = (N.of_nat (samples a2) mod 256)%N) _ _).
  { intros a n v b E. destruct a; discriminate E. }
  intros ls s os l s' o R IH St a n v b E. destruct (app_split _ _ _ _ _ E) as [(b' & E1 & _)|(a' & E1 & E2)]; [eapply IH; eauto|].
  assert (Hd : a' = [] /\ exists v', pc s = AtPublish n v').
  { destruct (step_shows _ _ _ _ St) as [(_ & -> & _)|[(q & rq & _ & _ & -> & _)|[(q & rq & _ & _ & -> & _)|(w & _ & Po)]]];
      try (destruct a' as [|? [|? ?]]; discriminate E2).
    destruct (poll_shows _ _ _ _ Po) as [(-> & _)|[(q & rq & _ & -> & _)|[(q & rq & _ & -> & _)|[(rq & _ & _ & -> & _)|[(rq & _ & _ & -> & _)|
      [(n' & v' & P & _ & -> & _)|[(n' & v' & P & _ & -> & _)|(n' & v' & _ & -> & _)]]]]]]];
      destruct a' as [|x [|y [|z a']]]; try discriminate E2; injection E2 as -> ->; eauto. }
  destruct Hd as (-> & v' & P). rewrite app_nil_r in E1. subst a.
  destruct (v_conf _ _ _ (reach _ _ _ R) n ltac:(now rewrite P)) as (a1 & q & a2 & A & B & C & D). exists a1, q, a2. auto.
Qed.
Print Assumptions C83_samples_numbered.

(** What is sent is what was read, in order, each reading once; at most one is yet to be sent. *)
Theorem C83_samples_are_readings :
  forall ls s os, accel_run ls accel_new = Some (s, os) ->
  exists last, readings ls = attempted os ++ last /\ length last <= 1.
Proof.
  intros ls s os R. exists (pending s). split; [apply (v_read _ _ _ (reach _ _ _ R))|]. unfold pending. destruct (pc s); cbn; lia.
Qed.
Print Assumptions C83_samples_are_readings.

(** ** Stopping *)
Lemma split_at_stop ls : forall s s' a x b, accel_run ls s = Some (s', a ++ StopAnswer x :: b) ->
  exists ls1 ls2 s1 s2, ls = ls1 ++ Stop :: ls2 /\ accel_run ls1 s = Some (s1, a) /\ accel_step Stop s1 = Some (s2, [StopAnswer x]) /\
    accel_run ls2 s2 = Some (s', b).
Proof.
  induction ls as [|l ls IH]; intros s s' a x b R; cbn [accel_run] in R.
  { injection R as _ E. destruct a; discriminate E. }
  destruct (accel_step l s) as [[s1 o]|] eqn:St; [|discriminate]. destruct (accel_run ls s1) as [[s2 os]|] eqn:R1; [|discriminate].
  injection R as -> E. symmetry in E. destruct (app_split _ _ _ _ _ (eq_sym E)) as [(b' & E1 & E2)|(a' & E1 & E2)].
  - assert (X : a = [] /\ b' = [] /\ l = Stop).
    { destruct (step_shows _ _ _ _ St) as [(-> & -> & _)|[(q & rq & _ & _ & -> & _)|[(q & rq & _ & _ & -> & _)|(w & _ & Po)]]];
        try (destruct a as [|? [|? ?]]; try discriminate E1; injection E1 as _ <-; auto; fail).
      destruct (poll_shows _ _ _ _ Po) as [(-> & _)|[(q & rq & _ & -> & _)|[(q & rq & _ & -> & _)|[(rq & _ & _ & -> & _)|[(rq & _ & _ & -> & _)|
        [(n' & v' & _ & _ & -> & _)|[(n' & v' & _ & _ & -> & _)|(n' & v' & _ & -> & _)]]]]]]];
        destruct a as [|? [|? [|? ?]]]; discriminate E1. }
    destruct X as (-> & -> & ->). cbn [app] in E1, E2. subst. exists [], ls, s, s1. repeat split; auto.
  - subst a os. destruct (IH _ _ _ _ _ R1) as (ls1 & ls2 & s3 & s4 & -> & R3 & St4 & R4).
    exists (l :: ls1), ls2, s3, s4. split; [reflexivity|]. split; [|auto]. cbn [accel_run]. now rewrite St, R3.
Qed.

(** How many samples can still come without another start. *)
Definition quota (s : Accel) : option nat :=
  match pc s with
  | NoTask | AtLock _ _ | AtReply _ _ => Some 0
  | AtRange _ => if stop s then Some 0 else None
  | _ => if stop s then Some 1 else None
  end.
Lemma quota_run ls : forall s s' b k, accel_run ls s = Some (s', b) -> no_start b -> quota s = Some k -> samples b <= k.
Proof.
  induction ls as [|l ls IH]; intros s s' b k R Nb Q; cbn [accel_run] in R; [injection R as _ <-; cbn; lia|].
  destruct (accel_step l s) as [[s1 o]|] eqn:St; [|discriminate]. destruct (accel_run ls s1) as [[s2 os]|] eqn:R1; [|discriminate].
  injection R as -> <-.
  assert (No : no_start o) by (intros q X; apply (Nb q), in_app_iff; auto).
  assert (Ns : no_start os) by (intros q X; apply (Nb q), in_app_iff; auto).
  rewrite samples_app.
  enough (X : exists k', quota s1 = Some k' /\ samples o + k' <= k).
  { destruct X as (k' & Q' & L). pose proof (IH _ _ _ _ R1 Ns Q'). lia. }
  unfold quota in Q |- *.
  destruct (step_shows _ _ _ _ St) as [(_ & -> & P' & S')|[(q & rq & _ & P & -> & P' & S')|[(q & rq & _ & _ & -> & ->)|(w & _ & Po)]]].
  - rewrite P', S'. destruct (locked s), (pc s); try (exists k; split; [exact Q|cbn; lia]); try (destruct (stop s); [|discriminate]; exists k; split; [exact Q|cbn; lia]).
  - rewrite P'. rewrite P in Q. injection Q as <-. exists 0. auto.
  - exists k. split; [exact Q|cbn; lia].
  - destruct (poll_shows _ _ _ _ Po) as [(-> & S')|[(q & rq & P & -> & _)|[(q & rq & P & -> & P' & _)|[(rq & P & S & -> & P')|[(rq & P & S & -> & P' & S')|
      [(n' & v' & P & S & -> & P')|[(n' & v' & P & S & -> & P' & S')|(n' & v' & P & -> & P')]]]]]]].
    + unfold poll, check in Po. destruct (pc s), w; try discriminate Po.
      * destruct (locked s); [discriminate|]. injection Po as <-. cbn. exists 0. injection Q as <-. auto.
      * destruct (stop s); discriminate Po.
      * injection Po as <-. cbn in *. rewrite Q. eauto.
      * injection Po as <-. cbn in *. rewrite Q. eauto.
      * injection Po as <-. cbn in *. rewrite Q. eauto.
      * injection Po as <-. cbn in *. rewrite Q. eauto.
      * destruct (stop s); discriminate Po.
    + destruct (No q). now left.
    + rewrite P'. exists 0. split; [reflexivity|unfold samples; cbn; lia].
    + rewrite P'. exists 0. split; [reflexivity|unfold samples; cbn; lia].
    + rewrite P, S in Q. discriminate.
    + rewrite P'. rewrite P, S in Q. injection Q as <-. exists 0. split; [reflexivity|unfold samples; cbn; lia].
    + rewrite P, S in Q. discriminate.
    + rewrite P'. exists 0. split; [reflexivity|unfold samples; cbn; lia].
Qed.

(** *** C83 A stream that was stopped stops

    After a stop was answered "was running", at most one more sample is published before a start
    is confirmed again; after it was answered "was not running", none is. *)
Theorem C83_stop_is_effective :
  forall ls s os, accel_run ls accel_new = Some (s, os) ->
  forall a was_busy b, os = a ++ StopAnswer was_busy :: b -> no_start b ->
  samples b <= (if was_busy then 1 else 0).
Proof.
  intros ls s os R a x b -> Nb. destruct (split_at_stop _ _ _ _ _ _ R) as (ls1 & ls2 & s1 & s2 & -> & R1 & St & R2).
  assert (I := reach _ _ _ R1). pose proof (v_lock _ _ _ I) as L.
  destruct (step_shows _ _ _ _ St) as [(_ & E & P & S)|[(q & rq & E & _)|[(q & rq & E & _)|(w & E & _)]]]; try discriminate E.
  injection E as ->. eapply Nat.le_trans with (m := match quota s2 with Some k => k | None => 0 end).
  - destruct (quota s2) as [k|] eqn:Q; [eapply quota_run; eauto|]. exfalso. unfold quota in Q. rewrite P, S in Q.
    rewrite L in Q. destruct (pc s1); cbn in Q; try discriminate Q.
  - unfold quota. rewrite P, S, L. destruct (pc s1); cbn; lia.
Qed.
Print Assumptions C83_stop_is_effective.

(** ... and its task does end: within three steps of its own. *)
Definition steps_left (s : Accel) : nat :=
  match pc s with NoTask | AtLock _ _ => 0 | AtReply _ _ => 2 | AtRange _ => 1 | AtTick _ => 3 | AtRead _ => 2 | AtPublish _ _ => 1 end.
Lemma ends_run ls : forall s s' o, accel_run ls s = Some (s', o) -> stop s = true -> holding (pc s) = true -> steps_left s <= polls ls ->
  In Ended o \/ (exists q, In (StartLost q) o) \/ halted s' = true.
Proof.
  induction ls as [|l ls IH]; intros s s' o R S H L; cbn [accel_run] in R.
  { cbn in L. unfold steps_left in L. destruct (pc s); cbn in H; (discriminate H || lia). }
  destruct (accel_step l s) as [[s1 o1]|] eqn:St; [|discriminate]. destruct (accel_run ls s1) as [[s2 os]|] eqn:R1; [|discriminate].
  injection R as -> <-.
  assert (Go : stop s1 = true -> holding (pc s1) = true -> steps_left s1 <= polls ls ->
    In Ended (o1 ++ os) \/ (exists q, In (StartLost q) (o1 ++ os)) \/ halted s' = true).
  { intros A B C. destruct (IH _ _ _ R1 A B C) as [X|[[q X]|X]]; [left|right; left; exists q|right; right; exact X]; apply in_app_iff; auto. }
  destruct (step_shows _ _ _ _ St) as [(-> & -> & P' & S')|[(q & rq & -> & P & _)|[(q & rq & -> & _ & -> & ->)|(w & -> & Po)]]].
  - unfold polls in *. cbn [filter] in L. apply Go; rewrite ?P', ?S'; [destruct (locked s); auto|auto|]. unfold steps_left in *. now rewrite P'.
  - rewrite P in H. discriminate H.
  - apply Go; auto.
  - assert (Lp : steps_left s <= Datatypes.S (polls ls)) by exact L. clear L.
    assert (Hl : halted s1 = true -> In Ended (o1 ++ os) \/ (exists q, In (StartLost q) (o1 ++ os)) \/ halted s' = true).
    { intros X. right. right. destruct ls as [|l2 ls]; cbn [accel_run] in R1; [injection R1 as <- _; exact X|].
      unfold accel_step in R1. rewrite X in R1. discriminate. }
    destruct (poll_shows _ _ _ _ Po) as [(-> & S')|[(q & rq & P & -> & P' & S')|[(q & rq & P & -> & _)|[(rq & P & _ & -> & P')|[(rq & P & S0 & _)|
      [(n' & v' & P & _ & -> & P')|[(n' & v' & P & S0 & _)|(n' & v' & P & -> & P')]]]]]]]; try congruence;
      try (left; cbn; auto; fail); try (right; left; exists q; now left).
    + unfold steps_left in *. unfold poll, check in Po. rewrite S in Po. destruct (pc s) eqn:P, w; try discriminate Po; try discriminate H;
        injection Po as <-; try (apply Hl; reflexivity); (apply Go; cbn; auto; lia).
    + unfold steps_left in Lp. rewrite P in Lp. apply Go; [congruence|now rewrite P'|]. unfold steps_left. rewrite P'. lia.
Qed.
Theorem C83_stop_ends :
  forall ls1 s1 o1 s2 ls2 s3 o3,
    accel_run ls1 accel_new = Some (s1, o1) ->
    accel_step Stop s1 = Some (s2, [StopAnswer true]) ->
    accel_run ls2 s2 = Some (s3, o3) -> 3 <= polls ls2 ->
    In Ended o3 \/ (exists q, In (StartLost q) o3) \/ halted s3 = true.
Proof.
  intros ls1 s1 o1 s2 ls2 s3 o3 R1 St R3 P3.
  pose proof (v_lock _ _ _ (reach _ _ _ R1)) as L.
  destruct (step_shows _ _ _ _ St) as [(_ & E & P & S)|[(q & rq & E & _)|[(q & rq & E & _)|(w & E & _)]]]; try discriminate E.
  injection E as E. rewrite <- E in S, L. apply (ends_run ls2 s2); auto; [now rewrite P|].
  eapply Nat.le_trans; [|exact P3]. unfold steps_left. destruct (pc s2); lia.
Qed.
Print Assumptions C83_stop_ends.

(** A task never waits for the accelerometer, which the one before it has released: whatever it
    waits for, it goes on when that succeeds. *)
Theorem C83_never_stuck :
  forall ls s os, accel_run ls accel_new = Some (s, os) -> running os -> halted s = false ->
  exists w s' o, w <> WError /\ accel_step (Poll w) s = Some (s', o).
Proof.
  intros ls s os R Ru H. destruct (reach _ _ _ R) as [V1 _ V3 _ _]. apply V3 in Ru. unfold accel_step. rewrite H.
  unfold poll, check. destruct (pc s) eqn:P; [contradiction|..]; cbn in V1.
  - exists WDone. rewrite V1. do 2 eexists. split; [discriminate|reflexivity].
  - exists WDone. do 2 eexists. split; [discriminate|reflexivity].
  - exists WDone. destruct (stop s); do 2 eexists; (split; [discriminate|reflexivity]).
  - exists WDone. do 2 eexists. split; [discriminate|reflexivity].
  - exists (WReading (MkAcc 0%Z 0%Z 0%Z)). do 2 eexists. split; [discriminate|reflexivity].
  - exists WDone. destruct (stop s); do 2 eexists; (split; [discriminate|reflexivity]).
Qed.
Print Assumptions C83_never_stuck.

(** A start is refused exactly when the task of an earlier one has not ended. *)
Theorem C83_refused_iff :
  forall ls s os q rq s' o, accel_run ls accel_new = Some (s, os) -> accel_step (Start q rq) s = Some (s', o) ->
  (o = [Refused q] /\ running os) \/ (o = [Accepted q] /\ ~ running os).
Proof.
  intros ls s os q rq s' o R St. pose proof (v_run _ _ _ (reach _ _ _ R)) as V.
  destruct (step_shows _ _ _ _ St) as [(E & _)|[(q' & rq' & E & P & -> & _)|[(q' & rq' & E & P & -> & _)|(w & E & _)]]]; try discriminate E;
    injection E as <- <-.
  - right. split; [reflexivity|]. intros X. apply V in X. contradiction.
  - left. split; [reflexivity|]. now apply V.
Qed.
Print Assumptions C83_refused_iff.

(** *** C84 When a stream ends

    Exactly: when a sample could not be sent, or when it looks at the stop flag (after setting the
    range, and after each sample) and some stop was answered "was running" since a stream last
    ended. *)
Theorem C84_ends_iff :
  forall ls s os w s' o, accel_run ls accel_new = Some (s, os) -> accel_step (Poll w) s = Some (s', o) ->
  (In Ended o <->
   (exists n v, In (SampleLost n v) o) \/
   (((exists r, In (RangeSet r) o) \/ (exists n v, In (Sample n v) o)) /\ told os)).
Proof.
  intros ls s os w s' o R St. pose proof (v_stop _ _ _ (reach _ _ _ R)) as V.
  destruct (step_shows _ _ _ _ St) as [(E & _)|[(q' & rq' & E & _)|[(q' & rq' & E & _)|(w' & E & Po)]]]; try discriminate E.
  destruct (poll_shows _ _ _ _ Po) as [(-> & S')|[(q & rq & P & -> & P' & S')|[(q & rq & P & -> & _)|[(rq & P & S & -> & P')|[(rq & P & S & -> & _)|
    [(n' & v' & P & S & -> & P')|[(n' & v' & P & S & -> & _)|(n' & v' & P & -> & P')]]]]]]].
  - cbn. split; [tauto|]. intros [(? & ? & [])|([(? & [])|(? & ? & [])] & _)].
  - split; [intros [X|[]]; discriminate X|]. intros [(? & ? & [X|[]])|([(? & [X|[]])|(? & ? & [X|[]])] & _)]; discriminate X.
  - split; [intros [X|[]]; discriminate X|]. intros [(? & ? & [X|[]])|([(? & [X|[]])|(? & ? & [X|[]])] & _)]; discriminate X.
  - split; [|cbn; auto]. intros _. right. split; [left; exists G8; now left|now apply V].
  - split; [intros [X|[]]; discriminate X|]. intros [(? & ? & [X|[]])|(_ & X)]; [discriminate X|]. apply V in X. congruence.
  - split; [|cbn; auto]. intros _. right. split; [right; exists n', v'; now left|now apply V].
  - split; [intros [X|[]]; discriminate X|]. intros [(? & ? & [X|[]])|(_ & X)]; [discriminate X|]. apply V in X. congruence.
  - split; [|cbn; auto]. intros _. left. exists n', v'. now left.
Qed.
Print Assumptions C84_ends_iff.

Lemma accepted_idle : forall ls s os, accel_run ls accel_new = Some (s, os) ->
  forall a q b, os = a ++ Accepted q :: b -> ~ running a.
Proof.
  refine (run_ind (fun _ _ os => forall a q b, os = a ++ Accepted q :: b -> ~ running a) _ _).
  { intros a q b E. destruct a; discriminate E. }
  intros ls s os l s' o R IH St a q b E. destruct (app_split _ _ _ _ _ E) as [(b' & E1 & _)|(a' & E1 & E2)]; [eapply IH; eauto|].
  assert (Hd : a' = [] /\ pc s = NoTask).
  { destruct (step_shows _ _ _ _ St) as [(_ & -> & _)|[(q' & rq & _ & P & -> & _)|[(q' & rq & _ & _ & -> & _)|(w & _ & Po)]]];
      try (destruct a' as [|? [|? ?]]; try discriminate E2; auto; fail).
    destruct (poll_shows _ _ _ _ Po) as [(-> & _)|[(q' & rq & _ & -> & _)|[(q' & rq & _ & -> & _)|[(rq & _ & _ & -> & _)|[(rq & _ & _ & -> & _)|
      [(n' & v' & P & _ & -> & _)|[(n' & v' & P & _ & -> & _)|(n' & v' & _ & -> & _)]]]]]]];
      destruct a' as [|x [|y [|z a']]]; discriminate E2. }
  destruct Hd as [-> P]. rewrite app_nil_r in E1. subst a. intros X. apply (v_run _ _ _ (reach _ _ _ R)) in X. contradiction.
Qed.

Lemma running_app a : running a -> forall b, ~ In Ended b -> (forall q, ~ In (StartLost q) b) -> running (a ++ b).
Proof.
  intros Ra b. induction b as [|x b IH] using rev_ind; intros N L; [now rewrite app_nil_r|].
  rewrite app_assoc. apply running_snoc. right. split; [|split].
  - apply IH; [intros X; apply N|intros q X; apply (L q)]; apply in_app_iff; auto.
  - intros ->. apply N, in_app_iff. right. now left.
  - intros q ->. apply (L q), in_app_iff. right. now left.
Qed.

(** *** C84 A confirmed stream goes on until it is stopped

    If the reply to a start has never failed, then a stream whose start was accepted, and that was
    not stopped since, ends only when a sample cannot be sent.  Missing: after a reply to a start
    has failed, see [C84_silent_start_refuted]. *)
Theorem C84_streams_partial :
  forall ls s a q b w s' o,
    accel_run ls accel_new = Some (s, a ++ Accepted q :: b) ->
    (forall q', ~ In (StartLost q') (a ++ Accepted q :: b)) ->
    ~ In (StopAnswer true) b ->
    accel_step (Poll w) s = Some (s', o) -> In Ended o ->
    exists n v, In (SampleLost n v) o.
Proof.
  intros ls s a q b w s' o R NL NS St E. apply (C84_ends_iff _ _ _ _ _ _ R St) in E. destruct E as [E|[_ (c & d & E & N)]]; [exact E|].
  exfalso. destruct (app_split _ _ _ _ _ E) as [(b' & E1 & E2)|(a' & E1 & E2)].
  - subst a d. pose proof R as R'. rewrite <- app_assoc in R'. destruct (split_at_stop _ _ _ _ _ _ R') as (ls1 & ls2 & s1 & s2 & _ & R1 & St1 & _).
    pose proof (reach _ _ _ R1) as I. destruct (step_shows _ _ _ _ St1) as [(_ & X & _)|[(? & ? & X & _)|[(? & ? & X & _)|(? & X & _)]]]; try discriminate X.
    injection X as X. rewrite (v_lock _ _ _ I) in X.
    assert (Ru : running c). { apply (v_run _ _ _ I). intros Y. rewrite Y in X. discriminate X. }
    apply (accepted_idle _ _ _ R (c ++ StopAnswer true :: b') q b eq_refl).
    apply running_app; [exact Ru| |].
    + intros [Y|Y]; [discriminate Y|]. apply N, in_app_iff. auto.
    + intros q' [Y|Y]; [discriminate Y|]. apply (NL q'), in_app_iff. left. apply in_app_iff. right. now right.
  - destruct a' as [|x a']; [discriminate E2|]. injection E2 as _ E2. apply NS. rewrite E2. apply in_app_iff. right. now left.
Qed.
Print Assumptions C84_streams_partial.

(** ** C85 The lights *)
Lemma assign_some {A} (l : list A) : forall i x, i < length l ->
  exists l', assign l i x = Some l' /\ length l' = length l /\ forall j d, nth j l' d = if j =? i then x else nth j l d.
Proof.
  induction l as [|a l IH]; intros i x L; [cbn in L; lia|]. destruct i as [|i]; cbn [assign].
  - exists (x :: l). split; [reflexivity|]. split; [reflexivity|]. intros [|j] d; reflexivity.
  - cbn in L. destruct (IH i x ltac:(lia)) as (l' & -> & L' & E). exists (a :: l'). split; [reflexivity|]. split; [cbn; lia|].
    intros [|j] d; cbn; [reflexivity|apply E].
Qed.
Lemma zip_set_all old : forall new, length new = length old -> zip_set old new = new.
Proof.
  induction old as [|a old IH]; intros [|c new] L; try discriminate L; [reflexivity|]. cbn. f_equal. apply IH. now injection L.
Qed.

(** The lights show, each, the colour it was last given; a request for a light that does not exist
    is refused and changes nothing; no handler panics. *)
Theorem C85_lights :
  forall os, Forall led_op_ok os ->
  let '(s, rs) := led_run os strip_new in
  length (leds s) = 24 /\ (forall i, i < 24 -> nth i (leds s) (MkRgb 0 0 0) = colour i os (MkRgb 0 0 0)) /\
  (In LedOk rs -> shown s = leds s) /\
  rs = map (fun o => match o with SetLed p _ => if (p <? 24)%N then LedOk else BadPosition | SetAll _ => LedOk end) os.
Proof.
  change (MkRgb 0 0 0) with black.
  assert (G : forall os s, Forall led_op_ok os -> length (leds s) = 24 ->
    let '(s', rs) := led_run os s in
    length (leds s') = 24 /\ (forall i, i < 24 -> nth i (leds s') black = colour i os (nth i (leds s) black)) /\
    ((shown s = leds s \/ In LedOk rs) -> shown s' = leds s') /\
    rs = map (fun o => match o with SetLed p _ => if (p <? 24)%N then LedOk else BadPosition | SetAll _ => LedOk end) os).
  { induction os as [|o os IH]; intros s F L; cbn [led_run].
    { split; [exact L|]. split; [reflexivity|]. split; [|reflexivity]. intros [X|[]]. exact X. }
    inversion F as [|? ? F1 F2]; subst. destruct o as [p c|cs]; cbn [led_step].
    - unfold set_led. destruct (N.leb_spec 24 p) as [Lp|Lp].
      + specialize (IH s F2 L). destruct (led_run os s) as [s' rs]. destruct IH as (A & B & C & D).
        split; [exact A|]. split; [|split].
        * intros i Hi. cbn [colour]. destruct (N.eqb_spec p (N.of_nat i)); [lia|]. now apply B.
        * intros [X|[X|X]]; [apply C; auto|discriminate X|apply C; auto].
        * cbn [map]. destruct (N.ltb_spec p 24); [lia|]. now rewrite D.
      + destruct (assign_some (leds s) (N.to_nat p) c ltac:(rewrite L; lia)) as (l' & -> & L' & E).
        specialize (IH (MkStrip l' l') F2 ltac:(cbn; lia)). destruct (led_run os (MkStrip l' l')) as [s' rs]. destruct IH as (A & B & C & D).
        split; [exact A|]. split; [|split].
        * intros i Hi. cbn [colour]. rewrite (B i Hi). cbn [leds]. rewrite E. f_equal.
          destruct (Nat.eqb_spec i (N.to_nat p)), (N.eqb_spec p (N.of_nat i)); auto; lia.
        * intros _. apply C. left. reflexivity.
        * cbn [map]. destruct (N.ltb_spec p 24); [|lia]. now rewrite D.
    - unfold set_all_led. rewrite zip_set_all by (cbn in F1; lia). cbn in F1.
      specialize (IH (MkStrip cs cs) F2 F1). destruct (led_run os (MkStrip cs cs)) as [s' rs]. destruct IH as (A & B & C & D).
      split; [exact A|]. split; [|split].
      + intros i Hi. cbn [colour]. rewrite (B i Hi). cbn [leds]. f_equal. apply nth_indep. lia.
      + intros _. apply C. left. reflexivity.
      + cbn [map]. now rewrite D. }
  intros os F. specialize (G os strip_new F eq_refl). destruct (led_run os strip_new) as [s rs]. destruct G as (A & B & C & D).
  split; [exact A|]. split; [|split; [auto|exact D]]. intros i Hi. rewrite (B i Hi). f_equal. cbn [strip_new leds].
  do 24 (destruct i as [|i]; [reflexivity|]). lia.
Qed.
Print Assumptions C85_lights.
