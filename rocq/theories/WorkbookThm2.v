(** Property theorems C83, C84 and C85, continued: cases, and what fails. *)
From Coq Require Import NArith ZArith List Bool Arith Lia.
From Verif Require Import WorkbookModel WorkbookSpec WorkbookThm.
Import ListNotations.
Local Open Scope N_scope.

Definition rq16 : StartAccel := MkStart 20 G16.
Definition v1 : Acceleration := MkAcc 1%Z 0%Z (-3)%Z.
Definition v2 : Acceleration := MkAcc 2%Z 0%Z (-3)%Z.
Definition one (v : Acceleration) : list AccelLabel := [Poll WDone; Poll (WReading v); Poll WDone].

(** A stream of two samples; a stop asked while the second is awaited, a start refused meanwhile,
    and a new stream. *)
Definition session : list AccelLabel :=
  [Stop; Start 7 rq16; Poll WDone; Poll WDone; Poll WDone] ++ one v1 ++
  [Poll WDone; Stop; Start 8 rq16; Poll (WReading v2); Poll WDone; Stop; Start 9 rq16; Poll WDone; Poll WDone; Poll WDone] ++ one v1.

Example C83_ex : exists s,
  accel_run session accel_new =
    Some (s, [StopAnswer false; Accepted 7; Started 7; RangeSet G8; Sample 0 v1; StopAnswer true; Refused 8;
              Sample 1 v2; Ended; StopAnswer false; Accepted 9; Started 9; RangeSet G8; Sample 0 v1]) /\
  running [StopAnswer false; Accepted 7; Started 7; RangeSet G8; Sample 0 v1; StopAnswer true; Refused 8;
           Sample 1 v2; Ended; StopAnswer false; Accepted 9; Started 9; RangeSet G8; Sample 0 v1] /\
  halted s = false /\ readings session = [v1; v2; v1].
Proof.
  eexists. split; [vm_compute; reflexivity|]. split; [|split; reflexivity].
  exists [StopAnswer false; Accepted 7; Started 7; RangeSet G8; Sample 0 v1; StopAnswer true; Refused 8;
           Sample 1 v2; Ended; StopAnswer false], 9, [Started 9; RangeSet G8; Sample 0 v1].
  split; [reflexivity|]. split; [|intros q']; intros [X|[X|[X|[]]]]; discriminate X.
Qed.

(** *** C84 A confirmed start may be silent: refuted

    A start whose reply cannot be sent, with a stop handled while it was being sent (and answered
    "was running"), leaves the stop flag set.  The next start is accepted and confirmed, no stop
    follows it, every sample could be sent; the stream ends without one. *)
Theorem C84_silent_start_refuted :
  exists ls s a b s' o,
    accel_run ls accel_new = Some (s, a ++ Accepted 9 :: b) /\ b = [Started 9] /\
    accel_step (Poll WDone) s = Some (s', o) /\ In Ended o /\ (forall n v, ~ In (SampleLost n v) o) /\
    samples (a ++ Accepted 9 :: b ++ o) = 0%nat.
Proof.
  exists [Start 7 rq16; Poll WDone; Stop; Poll WError; Start 9 rq16; Poll WDone; Poll WDone].
  do 5 eexists. split; [instantiate (2 := [Accepted 7; StopAnswer true; StartLost 7]); vm_compute; reflexivity|].
  split; [reflexivity|]. split; [vm_compute; reflexivity|]. split; [cbn; auto|].
  split; [intros n v [X|[X|[]]]; discriminate X|reflexivity].
Qed.
Print Assumptions C84_silent_start_refuted.

(** *** C84 The range asked for is not used: refuted

    Whatever range is asked for, the only range the sensor is ever set to is 8 g. *)
Theorem C84_range_refuted :
  (exists ls s a rq b, accel_run ls accel_new = Some (s, a ++ Started 7 :: b) /\ In (Start 7 rq) ls /\
     range rq = G16 /\ In (RangeSet G8) b) /\
  forall ls s os, accel_run ls accel_new = Some (s, os) -> forall r, In (RangeSet r) os -> r = G8.
Proof.
  split.
  - exists [Start 7 rq16; Poll WDone; Poll WDone; Poll WDone]. do 4 eexists.
    split; [instantiate (2 := [Accepted 7]); vm_compute; reflexivity|]. split; [left; reflexivity|]. split; [reflexivity|left; reflexivity].
  - refine (run_ind (fun _ _ os => forall r, In (RangeSet r) os -> r = G8) _ _); [intros r []|].
    intros ls s os l s' o R IH St r X. apply in_app_iff in X. destruct X as [X|X]; [auto|].
    destruct (step_shows _ _ _ _ St) as [(_ & -> & _)|[(q & rq & _ & _ & -> & _)|[(q & rq & _ & _ & -> & _)|(w & _ & Po)]]];
      try (destruct X as [X|[]]; discriminate X).
    destruct (poll_shows _ _ _ _ Po) as [(-> & _)|[(q & rq & _ & -> & _)|[(q & rq & _ & -> & _)|[(rq & _ & _ & -> & _)|[(rq & _ & _ & -> & _)|
      [(n & v & _ & _ & -> & _)|[(n & v & _ & _ & -> & _)|(n & v & _ & -> & _)]]]]]]];
      repeat (destruct X as [X|X]; [try discriminate X; now injection X|]); destruct X.
Qed.
Print Assumptions C84_range_refuted.

(** *** C84 A start that follows a stop may be refused: refuted

    The answer to a stop does not wait for the stream's end. *)
Theorem C84_restart_refuted :
  exists ls s os s', accel_run ls accel_new = Some (s, os ++ [StopAnswer true]) /\
    accel_step (Start 8 rq16) s = Some (s', [Refused 8]).
Proof.
  exists [Start 7 rq16; Poll WDone; Poll WDone; Poll WDone; Stop]. do 3 eexists.
  split; [instantiate (1 := [Accepted 7; Started 7; RangeSet G8]); vm_compute; reflexivity|vm_compute; reflexivity].
Qed.
Print Assumptions C84_restart_refuted.

(** A case of [C84_streams_partial]: a stream ended by a sample that cannot be sent, after an
    earlier one that was stopped. *)
Example C84_streams_ex : exists ls s a b s' o,
  accel_run ls accel_new = Some (s, a ++ Accepted 9 :: b) /\
  (forall q', ~ In (StartLost q') (a ++ Accepted 9 :: b)) /\ In (StopAnswer true) a /\
  ~ In (StopAnswer true) b /\ In (Sample 0 v1) b /\
  accel_step (Poll WError) s = Some (s', o) /\ In Ended o.
Proof.
  exists (session ++ [Poll WDone; Poll (WReading v2)]).
  do 5 eexists.
  split; [instantiate (2 := [StopAnswer false; Accepted 7; Started 7; RangeSet G8; Sample 0 v1; StopAnswer true; Refused 8;
              Sample 1 v2; Ended; StopAnswer false]); vm_compute; reflexivity|].
  split; [intros q' X; cbn in X; repeat (destruct X as [X|X]; [discriminate X|]); exact X|].
  split; [cbn; tauto|]. split; [intros X; cbn in X; repeat (destruct X as [X|X]; [discriminate X|]); exact X|].
  split; [cbn; tauto|]. split; [vm_compute; reflexivity|cbn; auto].
Qed.

(** A case of [C85_lights]: one light, all lights, a light that does not exist. *)
Example C85_ex :
  let red8 := MkRgb 255 0 0 in
  let ops := [SetLed 3 red8; SetLed 24 red8; SetAll (repeat (MkRgb 0 1 2) 24); SetLed 23 red8] in
  Forall led_op_ok ops /\
  snd (led_run ops strip_new) = [LedOk; BadPosition; LedOk; LedOk] /\
  nth 3 (leds (fst (led_run ops strip_new))) black = MkRgb 0 1 2 /\
  nth 23 (shown (fst (led_run ops strip_new))) black = red8.
Proof.
  split; [|vm_compute; auto]. repeat (apply Forall_cons; [cbn; auto|]). apply Forall_nil.
Qed.
