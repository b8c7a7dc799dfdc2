(** Vocabulary for statements about the fake server. *)
From Coq Require Import NArith List Bool Arith.
From Verif Require Import KeyModel HeaderModel KeySpec HeaderSpec SubModel ClientModel ClientSpec SystemModel LiveSpec FakeModel.
Import ListNotations.

(** The frames that [recv_from_client] returned, and the frames that the test sent with
    success, in order. *)
Definition got (sv : list FakeEv) : list RpcFrame := flat_map (fun v => match v with FakeGot f => [f] | _ => [] end) sv.
Definition sent (sv : list FakeEv) : list (list N) := flat_map (fun v => match v with FakeSent b => [b] | _ => [] end) sv.
(** The frames that the client took from its transport, in order. *)
Definition received (cl : list Label) : list (list N) := flat_map (fun l => match l with LRecv b => [b] | _ => [] end) cl.

(** The frame of request [r] ([inl r]), respectively of publication [i] ([inr i]), as its
    caller gave it. *)
Definition given (cl : list Label) (call : nat + nat) (f : RpcFrame) : Prop :=
  match call with
  | inl r => exists resp, nth_error (issued 0 cl) r = Some (f, resp)
  | inr i => nth_error (published cl) i = Some f
  end.

(** The values that the Rust types admit: bytes are below 256, sequence numbers fit. *)
Definition calls_ok (cl : list Label) : Prop := forall call f, given cl call f -> header_ok (f_hdr f).

(** The test only used [reply] and [publish]. *)
Definition only_replies (bs : list (list N)) : Prop :=
  Forall (fun b => exists key seq body, header_ok (MkHeader (VKey8 key) (Seq4 seq)) /\ b = fake_frame key seq body) bs.

(** The steps that the program takes on its own: the futures of requests and publications,
    and the workers of the client with their transports.  The other steps are taken by the
    user of the client and by the test. *)
Definition f_own_step (l : FLabel) : bool :=
  match l with
  | FClient (LInEnd | LOutEnd _) => true
  | FClient l => own_step (SClient l)
  | FSendStart | FSendEnd _ | FRecvStart | FRecvEnd _ => true
  | FTake | FSend _ | FFatal | FDrop => false
  end.
