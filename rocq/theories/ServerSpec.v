(** Independent specification of what the receive loop must do. *)
From Coq Require Import NArith List.
From Verif Require Import KeyModel HeaderModel KeySpec HeaderSpec DispatchModel ServerModel.
Import ListNotations.

(** The well-formed frames among the receive results, in order: header and body
    are given by the documented encoding. *)
Inductive frames_of : list RxRes -> list (VarHeader * list N) -> Prop :=
  | fo_nil : frames_of [] []
  | fo_err k rxs l : frames_of rxs l -> frames_of (RxErr k :: rxs) l
  | fo_bad used rxs l : ~ acceptable used -> frames_of rxs l -> frames_of (RxFrame used :: rxs) l
  | fo_frame e h body rxs l : header_ok h -> is_encoding h e -> frames_of rxs l ->
      frames_of (RxFrame (e ++ body) :: rxs) ((h, body) :: l).

Definition rx_ok (r : RxRes) : Prop :=
  match r with RxFrame l => Forall byte_ok l | RxErr _ => True end.

(** The transmit results that end the loop. *)
Definition fatal (r : TxRes) : Prop := r = TxErr TxConnectionClosed \/ r = TxErr TxTimeout.

Section Spec.
  Context {St : Type} (handle : St -> VarHeader -> list N -> St * TxRes).
  (** Dispatching [frames] one after the other from [st] gives state [st'] and
      results [rs]. *)
  Inductive dispatched : St -> list (VarHeader * list N) -> list TxRes -> St -> Prop :=
    | ds_nil st : dispatched st [] [] st
    | ds_cons st h b l r rs st1 st' : handle st h b = (st1, r) -> dispatched st1 l rs st' ->
        dispatched st ((h, b) :: l) (r :: rs) st'.
End Spec.
