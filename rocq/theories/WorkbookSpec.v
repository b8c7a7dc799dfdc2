(** Vocabulary for the example firmware, in terms of what is seen of it. *)
From Coq Require Import NArith List Bool Arith.
From Verif Require Import WorkbookModel.
Import ListNotations.

(** How many samples were published. *)
Definition samples (os : list Obs) : nat :=
  length (filter (fun o => match o with Sample _ _ => true | _ => false end) os).

(** No start is confirmed in [os]. *)
Definition no_start (os : list Obs) : Prop := forall q, ~ In (Started q) os.

(** A stop was answered "was running", and since then no stream has come to its end. *)
Definition told (os : list Obs) : Prop := exists a b, os = a ++ StopAnswer true :: b /\ ~ In Ended b.

(** A start was accepted and its task has not come to an end since. *)
Definition running (os : list Obs) : Prop :=
  exists a q b, os = a ++ Accepted q :: b /\ ~ In Ended b /\ forall q', ~ In (StartLost q') b.

(** The readings of the sensor, in order. *)
Definition readings (ls : list AccelLabel) : list Acceleration :=
  flat_map (fun l => match l with Poll (WReading v) => [v] | _ => [] end) ls.
(** ... and those that were sent, or whose sending failed. *)
Definition attempted (os : list Obs) : list Acceleration :=
  flat_map (fun o => match o with Sample _ v => [v] | SampleLost _ v => [v] | _ => [] end) os.

(** Progress of the task. *)
Definition polls (ls : list AccelLabel) : nat :=
  length (filter (fun l => match l with Poll _ => true | _ => false end) ls).

(** The last of the requests [os] that set light [i], oldest request first. *)
Fixpoint colour (i : nat) (os : list LedOp) (before : Rgb8) : Rgb8 :=
  match os with
  | [] => before
  | SetLed p c :: tl => colour i tl (if (p =? N.of_nat i)%N then c else before)
  | SetAll cs :: tl => colour i tl (nth i cs before)
  end.
(** [[Rgb8; 24]]. *)
Definition led_op_ok (o : LedOp) : Prop := match o with SetAll cs => length cs = 24 | _ => True end.
