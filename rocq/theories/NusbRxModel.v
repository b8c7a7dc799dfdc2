(** Model of the nusb host receive loop.
    Source: /repo/source/postcard-rpc/src/host_client/raw_nusb.rs:18-25, 405-511.

    The queue is modelled by the number of pending requests; the environment
    supplies the completions in order and the results of [clear_halt].
    [next_complete] panics when no request is pending (nusb's contract). *)
From Coq Require Import NArith List Bool Arith.
Import ListNotations.

(** raw_nusb.rs:23, 25. *)
Definition IN_FLIGHT_REQS := 4.
Definition MAX_STALL_RETRIES := 10.

(** nusb's [TransferError] and [Completion] (external crate), as matched at
    raw_nusb.rs:437, 455-462. *)
Inductive TransferError := Cancelled | Stall | Disconnected | Fault | Unknown.
Inductive Completion := COk (data : list N) | CErr (e : TransferError).

(** Result of [recv_inner]; [NWaiting]: no more completions so far. *)
Inductive NRes := NGot (data : list N) | NErr (e : TransferError) | NWaiting | NPanic | NFuel.

(** Awaits of [next_complete], with the number of requests pending then. *)
Inductive Await := AMain (pending : nat) | ADrain (pending : nat).

(** 477-480: joins the cancelled requests, ignoring their status. *)
Fixpoint drain_requests (n : nat) (pending : nat) (comps : list Completion)
  : option NRes * nat * list Completion * list Await :=
  match n with
  | O => (None, pending, comps, [])
  | S n' =>
    match pending with
    | O => (Some NPanic, 0, comps, [])
    | S p' =>
      match comps with
      | [] => (Some NWaiting, pending, [], [ADrain pending])
      | _ :: tl =>
        let '(r, p, c, aw) := drain_requests n' p' tl in (r, p, c, ADrain pending :: aw)
      end
    end
  end.

(** 427-511 [recv_inner]; state: pending requests and [consecutive_errs].  The
    loop is bounded by fuel, which theorems show to suffice. *)
Fixpoint recv_inner (fuel pending errs : nat) (comps : list Completion) (halts : list bool)
  : NRes * nat * nat * list Completion * list bool * list Await :=
  match fuel with
  | O => (NFuel, pending, errs, comps, halts, [])
  | S fuel' =>
    (** 430-433 *)
    let pending := pending + (IN_FLIGHT_REQS - pending) in
    match pending with
    | O => (NPanic, 0, errs, comps, halts, [])
    | S p1 =>
      match comps with
      | [] => (NWaiting, pending, errs, [], halts, [AMain pending])
      | COk d :: tl => (NGot d, p1, 0, tl, halts, [AMain pending])
      | CErr e :: tl =>
        let errs := S errs in
        let recoverable :=
          match e with
          | Stall | Unknown => errs <=? MAX_STALL_RETRIES
          | Cancelled | Disconnected | Fault => false
          end in
        if recoverable then
          let '(r, p2, tl', aw) := drain_requests (IN_FLIGHT_REQS - 1) p1 tl in
          match r with
          | Some r => (r, p2, errs, tl', halts, AMain pending :: aw)
          | None =>
            if hd true halts then
              let '(r', p3, errs', c', h', aw') := recv_inner fuel' p2 errs tl' (List.tl halts) in
              (r', p3, errs', c', h', AMain pending :: aw ++ aw')
            else (NErr e, p2, errs, tl', List.tl halts, AMain pending :: aw)
          end
        else (NErr e, p1, errs, tl, halts, [AMain pending])
      end
    end
  end.
(** 423: [WireRx::receive]. *)
Definition recv (pending errs : nat) (comps : list Completion) (halts : list bool) :=
  recv_inner (S (length comps)) pending errs comps halts.
