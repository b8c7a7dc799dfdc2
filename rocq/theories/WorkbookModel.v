(** The handlers of the example firmware that keep state between requests:
    example/firmware/src/bin/comms-02.rs:206-292 (the same text is in
    example/firmware-eusb-v0_3/src/main.rs:202-288).

    Sections of code between two [await]s run without interruption: the executor has one thread,
    and the only other user of the shared data is the dispatcher, in a task of the same executor.
    [#[embassy_executor::task]] without [pool_size] makes room for one task of the function: to
    spawn a second one while the first has not ended is refused ([SpawnError::Busy]). *)
From Coq Require Import NArith ZArith List Bool.
Import ListNotations.

(** * The accelerometer *)

(** [AccelRange], example/workbook-icd/src/lib.rs:64-69. *)
Inductive AccelRange := G2 | G4 | G8 | G16.
(** [StartAccel], workbook-icd/src/lib.rs:72-75. *)
Record StartAccel := MkStart { interval_ms : N; range : AccelRange }.
(** [Acceleration], workbook-icd/src/lib.rs:57-61. *)
Record Acceleration := MkAcc { ac_x : Z; ac_y : Z; ac_z : Z }.

(** Where [accelerometer_handler] waits, comms-02.rs:242-283. *)
Inductive Pc :=
| NoTask                                 (* not spawned, or ended *)
| AtLock (seq : N) (rq : StartAccel)     (* 248: spawned; waits for the accelerometer *)
| AtReply (seq : N) (rq : StartAccel)    (* 249-252 *)
| AtRange (rq : StartAccel)              (* 258 *)
| AtTick (n : N)                         (* 263 *)
| AtRead (n : N)                         (* 264 *)
| AtPublish (n : N) (v : Acceleration).  (* 271-274 *)

Record Accel := MkAccel {
  pc : Pc;
  locked : bool;     (* the mutex around the accelerometer, [Context::accel] *)
  stop : bool;       (* [STOP], 239 *)
  halted : bool      (* the firmware panicked in [defmt::unwrap!] *)
}.
Definition accel_new : Accel := MkAccel NoTask false false false.

(** What can be seen of it: frames, the range the sensor is set to, and the task's end. *)
Inductive Obs :=
| Accepted (seq : N)                     (* the task was spawned *)
| Refused (seq : N)                      (* answered [FailedToSpawn] *)
| Started (seq : N)                      (* the reply to the start was sent *)
| StartLost (seq : N)                    (* ... or could not be *)
| RangeSet (r : AccelRange)
| Sample (n : N) (v : Acceleration)      (* published with sequence number [n] *)
| SampleLost (n : N) (v : Acceleration)
| StopAnswer (was_busy : bool)
| Ended.                                 (* 281 "Stopping!" *)

(** 281-283: the end of the task; the guard of the mutex is dropped. *)
Definition ending : Accel := MkAccel NoTask false false false.

(** 262: the condition of the loop. *)
Definition check (n : N) (s : Accel) : Accel * list Obs :=
  if stop s then (ending, [Ended]) else (MkAccel (AtTick n) (locked s) (stop s) (halted s), []).

(** What the task waits for is there: [WDone], an error, or a reading. *)
Inductive Wake := WDone | WError | WReading (v : Acceleration).

Definition poll (w : Wake) (s : Accel) : option (Accel * list Obs) :=
  match pc s, w with
  | AtLock q rq, WDone =>                                                      (* 248 *)
    if locked s then None else Some (MkAccel (AtReply q rq) true (stop s) (halted s), [])
  | AtReply q rq, WDone => Some (MkAccel (AtRange rq) (locked s) (stop s) (halted s), [Started q])
  | AtReply q rq, WError =>                                                    (* 253-256 *)
    Some (MkAccel NoTask false (stop s) (halted s), [StartLost q])
  | AtRange rq, WDone => let '(s', o) := check 0 s in Some (s', RangeSet G8 :: o)  (* 258-262 *)
  | AtRange rq, WError => Some (MkAccel (pc s) (locked s) (stop s) true, [])   (* 258 unwrap! *)
  | AtTick n, WDone => Some (MkAccel (AtRead n) (locked s) (stop s) (halted s), [])
  | AtRead n, WReading v => Some (MkAccel (AtPublish n v) (locked s) (stop s) (halted s), [])
  | AtRead n, WError => Some (MkAccel (pc s) (locked s) (stop s) true, [])     (* 264 unwrap! *)
  | AtPublish n v, WDone =>                                                    (* 279 *)
    let '(s', o) := check ((n + 1) mod 256) s in Some (s', Sample n v :: o)
  | AtPublish n v, WError => Some (ending, [SampleLost n v; Ended])            (* 275-278, 281 *)
  | _, _ => None
  end.

Inductive AccelLabel :=
| Start (seq : N) (rq : StartAccel)   (* the dispatcher handles a request to start: @ep_arm spawn *)
| Stop                                (* ... to stop, 285-292 *)
| Poll (w : Wake).

Definition accel_step (l : AccelLabel) (s : Accel) : option (Accel * list Obs) :=
  if halted s then None
  else
    match l with
    | Start q rq =>
      match pc s with
      | NoTask => Some (MkAccel (AtLock q rq) (locked s) (stop s) (halted s), [Accepted q])
      | _ => Some (s, [Refused q])
      end
    | Stop => Some (MkAccel (pc s) (locked s) (if locked s then true else stop s) (halted s), [StopAnswer (locked s)])
    | Poll w => poll w s
    end.

Fixpoint accel_run (ls : list AccelLabel) (s : Accel) : option (Accel * list Obs) :=
  match ls with
  | [] => Some (s, [])
  | l :: tl =>
    match accel_step l s with
    | Some (s1, o) => match accel_run tl s1 with Some (s2, os) => Some (s2, o ++ os) | None => None end
    | None => None
    end
  end.

(** * The lights *)

(** [Rgb8], workbook-icd/src/lib.rs:47-51. *)
Record Rgb8 := MkRgb { red : N; green : N; blue : N }.
Definition black : Rgb8 := MkRgb 0 0 0.

(** An assignment to an array element panics out of bounds. *)
Fixpoint assign {A} (l : list A) (i : nat) (x : A) : option (list A) :=
  match l, i with
  | [], _ => None
  | _ :: tl, O => Some (x :: tl)
  | a :: tl, S j => match assign tl j x with Some tl' => Some (a :: tl') | None => None end
  end.

(** The strip: [ws2812_state], and what was last written to the lights. *)
Record Strip := MkStrip { leds : list Rgb8; shown : list Rgb8 }.
(** 161 [ws2812_state: [BLACK; 24]]; nothing is written at first. *)
Definition strip_new : Strip := MkStrip (repeat black 24) [].

Inductive LedResult := LedOk | BadPosition | LedPanic.

(** 206-223. *)
Definition set_led (position : N) (c : Rgb8) (s : Strip) : Strip * LedResult :=
  if (24 <=? position)%N then (s, BadPosition)
  else match assign (leds s) (N.to_nat position) c with
       | Some l => (MkStrip l l, LedOk)
       | None => (s, LedPanic)
       end.

(** 225-237: [zip] stops at the shorter; the array has 24 elements by its type. *)
Fixpoint zip_set (old new : list Rgb8) : list Rgb8 :=
  match old, new with
  | _ :: o, c :: n => c :: zip_set o n
  | o, [] => o
  | [], _ => []
  end.
Definition set_all_led (cs : list Rgb8) (s : Strip) : Strip :=
  let l := zip_set (leds s) cs in MkStrip l l.

Inductive LedOp := SetLed (position : N) (c : Rgb8) | SetAll (cs : list Rgb8).
Definition led_step (o : LedOp) (s : Strip) : Strip * LedResult :=
  match o with
  | SetLed p c => set_led p c s
  | SetAll cs => (set_all_led cs s, LedOk)
  end.
Fixpoint led_run (os : list LedOp) (s : Strip) : Strip * list LedResult :=
  match os with
  | [] => (s, [])
  | o :: tl => let '(s1, r) := led_step o s in let '(s2, rs) := led_run tl s1 in (s2, r :: rs)
  end.
