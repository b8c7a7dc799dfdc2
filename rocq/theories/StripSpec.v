(** What a strip of WS2812 lights makes of the levels of its input, from the data sheet:
    independent of the firmware. *)
From Coq Require Import NArith List Bool Arith.
From Verif Require Import WorkbookModel.
Import ListNotations.

(** A pulse of about 0.25 us is a 0, one of about 0.8 us a 1: in cycles of 125 ns, 2 or 3
    against 6 or 7; this decides at 0.5 us.  If the input was low for the [reset] time, what
    follows is a new message: bits that came before are shown. *)
Record Ear := MkEar { e_low : nat; e_high : nat; e_bits : list bool; e_done : list (list bool) }.
Definition hear (reset : nat) (level : bool) (e : Ear) : Ear :=
  if level then
    if (reset <=? e_low e) && negb (length (e_bits e) =? 0)
    then MkEar 0 (S (e_high e)) [] (e_done e ++ [e_bits e])
    else MkEar 0 (S (e_high e)) (e_bits e) (e_done e)
  else if e_high e =? 0 then MkEar (S (e_low e)) 0 (e_bits e) (e_done e)
       else MkEar 1 0 (e_bits e ++ [4 <=? e_high e]) (e_done e).
(** All messages: the last one is followed by a reset at the latest when nothing is sent. *)
Definition messages (reset : nat) (levels : list bool) : list (list bool) :=
  let e := fold_left (fun e l => hear reset l e) levels (MkEar 0 0 [] []) in
  e_done e ++ [e_bits e ++ if e_high e =? 0 then [] else [4 <=? e_high e]].

(** The first 24 bits of a message are for the first light and are not passed on to the
    others, and so on: eight bits of green, eight of red, eight of blue, the highest first. *)
Definition number (bits : list bool) : N := fold_left (fun a b => 2 * a + (if b : bool then 1 else 0))%N bits 0%N.
Definition light (i : nat) (message : list bool) : Rgb8 :=
  let part k := number (firstn 8 (skipn (24 * i + 8 * k) message)) in
  MkRgb (part 1) (part 0) (part 2).
(** What a strip of [n] lights shows after a message that is long enough for it. *)
Definition strip_shows (n : nat) (message : list bool) : list Rgb8 := map (fun i => light i message) (seq 0 n).
