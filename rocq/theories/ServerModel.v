(** Model of the server's receive loop.
    Source: /repo/source/postcard-rpc/src/server/mod.rs:122-131, 362-454. *)
From Coq Require Import NArith List Bool Arith.
From Verif Require Import KeyModel HeaderModel SchemaModel DispatchModel.
Import ListNotations.

(** server/mod.rs:122-131 [WireRxErrorKind] *)
Inductive RxErrKind := RxConnectionClosed | RxTooLarge | RxOther.
(** Result of one [rx.receive(buf)]. *)
Inductive RxRes := RxFrame (bytes : list N) | RxErr (k : RxErrKind).

(** server/mod.rs:362-372 [ServerError], reduced to the error kinds. *)
Inductive ServerError := TxFatal (k : TxErrKind) | RxFatal (k : RxErrKind).

(** How the loop stands after a finite history of receive results: waiting for
    the next receive, returned, or panicked (in header parsing). *)
Inductive RunStatus := Waiting | Returned (e : ServerError) | RunPanicked.

Section Server.
  Variable St : Type.
  (** [d.handle(tx, &hdr, body)]: everything but the loop. *)
  Variable handle : St -> VarHeader -> list N -> St * TxRes.

  (** server/mod.rs:420-454 [run]: given the results of the successive receive
      calls; returns the unconsumed results too. *)
  Fixpoint run (st : St) (rxs : list RxRes) : St * RunStatus * list RxRes :=
    match rxs with
    | [] => (st, Waiting, [])
    | RxErr RxConnectionClosed :: tl => (st, Returned (RxFatal RxConnectionClosed), tl)
    | RxErr RxTooLarge :: tl => run st tl
    | RxErr RxOther :: tl => run st tl
    | RxFrame used :: tl =>
      match take_from_slice used with
      | Panicked => (st, RunPanicked, tl)
      | Done None => run st tl
      | Done (Some (hdr, body)) =>
        let (st', res) := handle st hdr body in
        match res with
        | TxOk => run st' tl
        | TxErr TxConnectionClosed => (st', Returned (TxFatal TxConnectionClosed), tl)
        | TxErr TxOther => run st' tl
        | TxErr TxTimeout => (st', Returned (TxFatal TxTimeout), tl)
        end
      end
    end.
End Server.
