(** Model of the fake server for tests and doctests.
    Source: /repo/source/postcard-rpc/src/test_utils.rs (all of it), with the client of
    ClientModel.v.

    The client and the fake server are joined by two [tokio::sync::mpsc] channels of the
    same capacity.  A further [Stopper] simulates a failure of the transport.  Both wire
    interfaces look at it when a send or receive begins; from then on they [select!],
    without [biased], between the channel and the stopper.

    External code, from its documentation: [tokio::sync::mpsc] as in ChanModel.v (a
    bounded first-in first-out queue; [send] waits for room and fails once the receiver
    is gone; [recv] waits for a message and returns [None] once the queue is empty and
    the sender is gone; both may be dropped while waiting without losing a message).

    Simplified: the fields [from_client] and [to_client] are public; a test that uses them
    directly can send any bytes, which is covered ([FSend]); one that reads raw bytes from
    [from_client] sees what [recv_from_client] would decode. *)
From Coq Require Import NArith List Bool Arith.
From Verif Require Import KeyModel HeaderModel SubModel ClientModel.
Import ListNotations.

(** What the test sees of the calls it makes on the fake server. *)
Inductive FakeEv :=
| FakeGot (f : RpcFrame)          (* [recv_from_client] returned a frame *)
| FakeBadFrame                    (* it returned [LocalError::BadFrame] *)
| FakeTxClosed                    (* it returned [LocalError::TxClosed] *)
| FakeSent (bytes : list N)       (* [reply], [publish] or a direct send returned [Ok] *)
| FakeRxClosed.                   (* it returned [LocalError::RxClosed] *)

Record Fake := MkFake {
  fk_client : Client;
  fk_up : list (list N);      (* client to server *)
  fk_down : list (list N);    (* server to client *)
  fk_fatal : bool;            (* [fake_error] was stopped *)
  fk_gone : bool;             (* the [LocalFakeServer] was dropped *)
  fk_sending : bool;          (* the out worker's [send] is past its check of [fake_error] *)
  fk_listening : bool         (* the in worker's [receive] is past its check of [fake_error] *)
}.

(** test_utils.rs:53-72, 75-94: the bytes that [reply] and [publish] send; [key] is
    [E::RESP_KEY], respectively [T::TOPIC_KEY], and [body] the serialized value. *)
Definition fake_frame (key : Key8) (seq_no : N) (body : list N) : list N :=
  rpc_to_bytes (MkFrame (MkHeader (VKey8 key) (Seq4 seq_no)) body).

Inductive FLabel :=
| FClient (l : Label)             (* a step of the client that does not involve its transport *)
| FSendStart                      (* [LocalTx::send] begins *)
| FSendEnd (prefer_error : bool)  (* it completes; whether the stopper wins the select *)
| FRecvStart                      (* [LocalRx::receive] begins *)
| FRecvEnd (prefer_error : bool)  (* it completes *)
| FTake                           (* [LocalFakeServer::recv_from_client] *)
| FSend (bytes : list N)          (* [reply], [publish], [to_client.send] *)
| FFatal                          (* [cause_fatal_error] *)
| FDrop.                          (* the test drops the server *)

Section Fake.
  (** test_utils.rs:183-217 [local_setup]: [bound] is the capacity of both channels and the
      depth of the client's outgoing queue; the sequence number kind is [Seq2], which the
      client never reads.  A [bound] of 0 makes [channel] panic. *)
  Variable bound : nat.
  Variable err_key : Key8.
  Variable no_wait : bool.

  Definition fake_cfg : Config := MkConfig err_key bound no_wait SK2.
  Definition fake_new : Fake := MkFake client_new [] [] false false false false.
  Definition local_setup : option Fake := if bound =? 0 then None else Some fake_new.

  Definition with_client (s : Fake) (c : Client) : Fake :=
    MkFake c (fk_up s) (fk_down s) (fk_fatal s) (fk_gone s) (fk_sending s) (fk_listening s).

  (** The client's own step [l]; [k] is what else changes. *)
  Definition fake_client (l : Label) (s : Fake) (k : Fake -> Fake) : option (Fake * option (Label * list Ev) * option FakeEv) :=
    match step fake_cfg l (fk_client s) with
    | Some (c, e) => Some (k (with_client s c), Some (l, e), None)
    | None => None
    end.

  Definition set_sending (b : bool) (s : Fake) : Fake :=
    MkFake (fk_client s) (fk_up s) (fk_down s) (fk_fatal s) (fk_gone s) b (fk_listening s).
  Definition set_listening (b : bool) (s : Fake) : Fake :=
    MkFake (fk_client s) (fk_up s) (fk_down s) (fk_fatal s) (fk_gone s) (fk_sending s) b.
  Definition set_up (q : list (list N)) (s : Fake) : Fake :=
    MkFake (fk_client s) q (fk_down s) (fk_fatal s) (fk_gone s) (fk_sending s) (fk_listening s).
  Definition set_down (q : list (list N)) (s : Fake) : Fake :=
    MkFake (fk_client s) (fk_up s) q (fk_fatal s) (fk_gone s) (fk_sending s) (fk_listening s).

  (** Whether the in worker is about to receive (host_client/util.rs:188-213): it runs, and
      has nothing in hand. *)
  Definition in_idle (c : Client) : bool :=
    (c_in_alive c && negb (blocked (c_subs c)) && match c_offer c with Some _ => false | None => true end)%bool.

  (** One step; the second component is the step of the client it contains, the third
      what the test sees. *)
  Definition f_step (l : FLabel) (s : Fake) : option (Fake * option (Label * list Ev) * option FakeEv) :=
    let c := fk_client s in
    match l with
    | FClient (LRecv _ | LInFail | LOutSent | LOutFail _ | LOutEnd true) => None
    | FClient l => fake_client l s (fun s => s)
    (** test_utils.rs:152-163 *)
    | FSendStart =>
      match c_sending c with
      | None => None
      | Some _ =>
        if fk_sending s then None
        else if fk_fatal s then fake_client (LOutFail false) s (fun s => s)
        else Some (set_sending true s, None, None)
      end
    (** test_utils.rs:165-168 *)
    | FSendEnd prefer_error =>
      match c_sending c with
      | None => None
      | Some f =>
        if negb (fk_sending s) then None
        else if (fk_fatal s && prefer_error)%bool then fake_client (LOutFail false) s (fun s => s)
        else if fk_gone s then fake_client (LOutFail false) s (fun s => s)
        else if length (fk_up s) <? bound then
          fake_client LOutSent s (fun s => set_sending false (set_up (fk_up s ++ [rpc_to_bytes f]) s))
        else if fk_fatal s then fake_client (LOutFail false) s (fun s => s)
        else None
      end
    (** test_utils.rs:127-138 *)
    | FRecvStart =>
      if (in_idle c && negb (fk_listening s))%bool then
        if fk_fatal s then fake_client LInFail s (fun s => s)
        else Some (set_listening true s, None, None)
      else None
    (** test_utils.rs:140-143 *)
    | FRecvEnd prefer_error =>
      if negb (fk_listening s) then None
      else if (fk_fatal s && prefer_error)%bool then fake_client LInFail s (fun s => s)
      else
        match fk_down s with
        | b :: q => fake_client (LRecv b) s (fun s => set_listening false (set_down q s))
        | [] => if (fk_gone s || fk_fatal s)%bool then fake_client LInFail s (fun s => s) else None
        end
    (** test_utils.rs:41-50 *)
    | FTake =>
      if fk_gone s then None
      else
        match fk_up s with
        | b :: q =>
          match take_from_slice b with
          | Panicked => None
          | Done None => Some (set_up q s, None, Some FakeBadFrame)
          | Done (Some (hdr, body)) => Some (set_up q s, None, Some (FakeGot (MkFrame hdr body)))
          end
        | [] => if c_out_alive c then None else Some (s, None, Some FakeTxClosed)
        end
    (** test_utils.rs:68-71, 90-93 *)
    | FSend b =>
      if fk_gone s then None
      else if negb (c_in_alive c) then Some (s, None, Some FakeRxClosed)
      else if length (fk_down s) <? bound then Some (set_down (fk_down s ++ [b]) s, None, Some (FakeSent b))
      else None
    (** test_utils.rs:97-99 *)
    | FFatal =>
      if fk_gone s then None
      else Some (MkFake c (fk_up s) (fk_down s) true (fk_gone s) (fk_sending s) (fk_listening s), None, None)
    | FDrop =>
      if fk_gone s then None
      else Some (MkFake c (fk_up s) (fk_down s) (fk_fatal s) true (fk_sending s) (fk_listening s), None, None)
    end.

  (** A history: what the client did and showed, and what the test saw. *)
  Fixpoint f_run (ls : list FLabel) (s : Fake) : option (Fake * list Label * list (list Ev) * list FakeEv) :=
    match ls with
    | [] => Some (s, [], [], [])
    | l :: tl =>
      match f_step l s with
      | None => None
      | Some (s1, ce, fe) =>
        match f_run tl s1 with
        | None => None
        | Some (s2, cl, es, sv) =>
          let sv := match fe with Some v => v :: sv | None => sv end in
          match ce with
          | Some (x, e) => Some (s2, x :: cl, e :: es, sv)
          | None => Some (s2, cl, es, sv)
          end
        end
      end
    end.
End Fake.
