(** What the users of a shared sender are promised, in terms of what has happened. *)
From Coq Require Import NArith List Bool Arith.
From Verif Require Import UsbModel TurnModel.
Import ListNotations.

(** The number of USB packets with bytes of the message. *)
Definition frames (msg : list N) : N := (N.of_nat (length msg) + 63) / 64.

(** The milliseconds per frame in force after all this: the last value set, brought into the
    range from 1 to 60000; 2 if none was set. *)
Fixpoint setting (cur : N) (log : list Happened) : N :=
  match log with
  | [] => cur
  | HSet _ ms _ :: tl => setting (if ms <? 1 then 1 else if 60000 <? ms then 60000 else ms)%N tl
  | _ :: tl => setting cur tl
  end.
Definition in_force (log : list Happened) : N := setting 2 log.

(** Nothing but that tasks ask, or leave again. *)
Definition only_asking (log : list Happened) : Prop :=
  Forall (fun h => match h with HAsked _ _ _ | HLeft _ _ => True | _ => False end) log.

(** The sends that have ended, in the order of their turns, with how they ended. *)
Fixpoint turns (cur : list N) (log : list Happened) : list (list N * TRes) :=
  match log with
  | [] => []
  | HBegan _ m _ :: tl => turns m tl
  | HEnded _ r _ :: tl => (cur, r) :: turns cur tl
  | _ :: tl => turns cur tl
  end.
Definition sends_of (log : list Happened) : list (list N * TRes) := turns [] log.
Definition outcome (r : TRes) : SendRes :=
  match r with TOk => SOk | TClosed => SClosed | TTimeout | TDropped => SInterrupted end.

(** The time of what happened. *)
Definition at_time (h : Happened) : N :=
  match h with HAsked _ _ t | HLeft _ t | HBegan _ _ t | HEnded _ _ t | HSet _ _ t => t end.

(** What the tasks with the sender, the endpoint and the timer do of themselves; not that
    new tasks ask, and not that time passes when nothing is being sent. *)
Definition own (s : TSt) (e : TEv) : bool :=
  match e with
  | Ask _ | Leave _ => false
  | Tick => match s_turn s with Some _ => true | None => false end
  | _ => true
  end.
