(** Vocabulary for statements about letting go of a client. *)
From Coq Require Import NArith List Bool Arith.
From Verif Require Import KeyModel HeaderModel SubModel ClientModel ClientSpec HandleModel.
Import ListNotations.

(** A model of which the client is a part: its steps, as far as they concern the client,
    are steps of the client. *)
Record contains_client {State L} (cfg : Config) (step_below : L -> State -> option (State * option (Label * list Ev)))
    (client_of : State -> Client) (as_below : Label -> L) (call_below : L -> bool) : Prop := {
  cc_step : forall l s s' x e, step_below l s = Some (s', Some (x, e)) -> step cfg x (client_of s) = Some (client_of s', e);
  cc_none : forall l s s', step_below l s = Some (s', None) -> client_of s' = client_of s;
  cc_call : forall l s s' x e, call_below l = false -> step_below l s = Some (s', Some (x, e)) -> is_call x = false;
  cc_as : forall x s s' ce, step_below (as_below x) s = Some (s', ce) -> exists e, ce = Some (x, e) }.

(** Some handle has not been dropped. *)
Definition held (hs : Handles) : Prop := exists h, alive hs h = true.

(** The user called [close]. *)
Definition user_closed {L} (ls : list (HLabel L)) : Prop := exists h, In (HCall L h LClose) ls.
(** The transport failed, in either direction. *)
Definition transport_failed (cl : list Label) : Prop := In LInFail cl \/ exists b, In (LOutFail b) cl.

(** Every call that was accepted for sending has been given to the transport, once, in
    order: the frame of each with its key cut to a length in use. *)
Definition everything_sent (cl : list Label) (es : list (list Ev)) : Prop :=
  exists frames, Forall2 (frame_for cl es) (accepted cl es) frames /\ wire es = map rpc_to_bytes frames.

(** No call was told that the client is closed. *)
Definition nobody_refused (es : list (list Ev)) : Prop :=
  (forall r, ~ In (r, Closed) (results es)) /\ forall i, ~ In (EvPublished i false) (concat es).

(** No future of the client is left: every request has returned or was dropped, and so
    has every publication. *)
Definition no_future (c : Client) : Prop :=
  Forall (fun q => rq_pc q = PEnded) (c_reqs c) /\ Forall (fun p => p = None) (c_pubs c).

(** Steps that the program takes on its own, given which steps below are: the others are
    taken by the user. *)
Definition h_own_step {L} (own_below : L -> bool) (l : HLabel L) : bool :=
  match l with HGo _ l => own_below l | HEnd _ | HWaitDone _ _ => true | _ => false end.
