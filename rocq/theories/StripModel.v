(** How the workbook's firmware writes to its lights.
    Source: /repo/example/firmware/src/ws2812.rs (the same as
    /repo/example/firmware-eusb-v0_3/src/ws2812.rs): the words made from the colours, the program of
    the state machine (PIO) that turns them into pulses, and when [write] returns.

    External code and hardware, from its documentation: a state machine executes one
    instruction per cycle and then waits for the delay; the side-set value is on the pin from
    the instruction's first cycle on, also while the machine is stalled; with
    [auto_fill] and threshold 24, an [out] that finds 24 bits shifted out takes the next word
    from the FIFO first, and stalls while there is none.  [fifo_join: TxOnly] gives a FIFO of 8
    words.  [dma_push] returns when the last word is in the FIFO.

    Simplified: time is counted in cycles of the state machine, 10 for a bit of 1.25 us, so
    that 55 us are 440 cycles; taking a word from the FIFO and the DMA transfer take no time, and
    the word is taken when its first bit is needed (the hardware takes it when the last bit of the
    word before is shifted out, 10 cycles earlier). *)
From Coq Require Import NArith List Bool Arith.
From Verif Require Import WorkbookModel.
Import ListNotations.

(** ws2812.rs:97-104: the word of a colour, of type [u32]. *)
Definition shl32 (x k : N) : N := (N.shiftl x k mod 2 ^ 32)%N.
Definition word_of (c : Rgb8) : N := N.lor (N.lor (shl32 (green c) 24) (shl32 (red c) 16)) (shl32 (blue c) 8).

(** ** The state machine, ws2812.rs:36-61 *)
Inductive PioOp := OutX | JmpXIsZero (target : nat) | Jmp (target : nat) | Nop.
Record Instr := MkInstr { i_op : PioOp; i_delay : nat; i_side : bool }.
(** 39-41 *)
Definition T1 := 2. Definition T2 := 5. Definition T3 := 3.
(** 45-58, from [wrap_target] on: what is before is executed once and sets the direction of
    the pin. *)
Definition pio_program : list Instr :=
  [ MkInstr OutX (T3 - 1) false;
    MkInstr (JmpXIsZero 3) (T1 - 1) true;
    MkInstr (Jmp 0) (T2 - 1) true;
    MkInstr Nop (T2 - 1) false ].

Record Sm := MkSm { sm_pc : nat; sm_x : bool; sm_osr : N; sm_count : nat }.
(** After the last instruction comes the first (61 [assemble_with_wrap]). *)
Definition next_pc (pc : nat) : nat := if pc =? 3 then 0 else S pc.
(** One instruction: the levels of the pin, and the state after it.  81-85: bits leave at the
    left. *)
Definition sm_step (s : Sm) : list bool * Sm :=
  match nth_error pio_program (sm_pc s) with
  | None => ([], s)
  | Some i =>
    (repeat (i_side i) (S (i_delay i)),
     match i_op i with
     | OutX => MkSm (next_pc (sm_pc s)) (N.testbit (sm_osr s) 31) (shl32 (sm_osr s) 1) (S (sm_count s))
     | JmpXIsZero t => MkSm (if sm_x s then next_pc (sm_pc s) else t) (sm_x s) (sm_osr s) (sm_count s)
     | Jmp t => MkSm t (sm_x s) (sm_osr s) (sm_count s)
     | Nop => MkSm (next_pc (sm_pc s)) (sm_x s) (sm_osr s) (sm_count s)
     end)
  end.
(** It runs until an [out] finds the threshold (83) reached. *)
Fixpoint sm_run (fuel : nat) (s : Sm) : list bool * Sm :=
  match fuel with
  | O => ([], s)
  | S f =>
    if (sm_pc s =? 0) && (24 <=? sm_count s) then ([], s)
    else let '(l, s1) := sm_step s in let '(l', s2) := sm_run f s1 in (l ++ l', s2)
  end.
(** What a word makes of the pin: 100 instructions are more than enough ([word_levels_eq]). *)
Definition word_levels (w : N) : list bool := fst (sm_run 100 (MkSm 0 false w 0)).

(** ** [write], ws2812.rs:97-112 *)

(** The words taken by the state machine so far, with the times at which they were taken, the
    last one first.  240 cycles later it can take the next one. *)
Definition Log := list (nat * N).
(** One word of the DMA transfer, which is at time [t]: the FIFO has room once the word before
    the 7 last ones was taken. *)
Definition push (t : nat) (w : N) (log : Log) : nat * Log :=
  let p := Nat.max t (match nth_error log 7 with Some (s, _) => s | None => 0 end) in
  let s := match log with (s0, _) :: _ => Nat.max p (s0 + 240) | [] => p end in
  (p, (s, w) :: log).
Fixpoint push_all (t : nat) (ws : list N) (log : Log) : nat * Log :=
  match ws with
  | [] => (t, log)
  | w :: tl => let '(p, log') := push t w log in push_all p tl log'
  end.
(** 97-112: begun at [t]; the time at which it returns. *)
Definition write (t : nat) (colours : list Rgb8) (log : Log) : nat * Log :=
  let '(p, log') := push_all t (map word_of colours) log in (p + 440, log').
(** Several writes, each so many cycles after the one before has returned. *)
Fixpoint writes (t : nat) (l : list (nat * list Rgb8)) (log : Log) : Log :=
  match l with
  | [] => log
  | (pause, colours) :: tl => let '(t', log') := write (t + pause) colours log in writes t' tl log'
  end.

(** The levels of the pin up to the end of the last word.  While there is no word it is low: the
    machine is stalled at an instruction with side-set 0. *)
Fixpoint pin_levels (now : nat) (words : Log) : list bool :=
  match words with
  | [] => []
  | (s, w) :: tl => repeat false (s - now) ++ word_levels w ++ pin_levels (s + 240) tl
  end.
Definition pin (l : list (nat * list Rgb8)) : list bool := pin_levels 0 (rev (writes 0 l [])).
