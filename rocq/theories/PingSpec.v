(** What the first host program of the workbook is to print. *)
From Coq Require Import NArith List Bool Arith.
From Verif Require Import PingModel.
Import ListNotations.

(** "Pinging with 0... got 0!" and so on, [n] times (book/src/internection-host.md). *)
Definition pings (n : nat) : list PLine := flat_map (fun i => [Pinging (N.of_nat i); GotBack (N.of_nat i)]) (seq 0 n).

(** It has printed the first of the ten lines, the last of them perhaps only up to "got";
    or all of them and "App is done"; or the first of them and "Client is closed". *)
Inductive as_documented : PAt -> list PLine -> Prop :=
  | d_waits n : n < 10 -> as_documented (Waits (N.of_nat n)) (pings n)
  | d_pinged n : n < 10 -> as_documented (Pinged (N.of_nat n)) (pings n ++ [Pinging (N.of_nat n)])
  | d_done : as_documented Ended (pings 10 ++ [AppDone])
  | d_closed_waiting n : n < 10 -> as_documented Ended (pings n ++ [ClosedExiting])
  | d_closed_pinged n : n < 10 -> as_documented Ended (pings n ++ [Pinging (N.of_nat n); ClosedExiting]).
