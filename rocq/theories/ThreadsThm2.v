(** Concrete histories for the theorems of ThreadsThm.v.  For the theorems about
    subscribers these are the histories of [C75_ex] and [C75_multi_ex] of MissThm2.v. *)
From Coq Require Import NArith List Bool Arith Lia.
From Verif Require Import KeyModel HeaderModel KeySpec HeaderSpec MinKeyModel MinKeySpec
  SchemaModel MacroModel PostcardModel DispatchModel DispatchSpec DispatchThm SubModel SubSpec ClientModel ClientSpec ClientThm4.
From Verif Require Import DispatchModel DispatchSpec SystemModel SystemSpec SystemProof SystemThm2 FlowSpec LiveSpec LiveProof LiveThm LiveThm2
  AsyncModel AsyncSpec AsyncProof AsyncThm AsyncThm2 MissSpec MissThm ThreadsSpec ThreadsThm.
Import ListNotations.

Notation z_step := (a_step N N N x_std x_net (fun _ _ => true) KK1 (fun c => (c, c)) x_disp s_enc s_task s_cfg).

(** The history of [C73_ex]: four frames, a background task, and a task that is spawned;
    both tasks transmit while a handler is waiting in its own transmission. *)
Example C77_ex :
  exists a cl es, s_arun a_history a_start = Some (a, cl, es) /\
    (forall l, a_own_step l = true -> z_step l a = None) /\
    length (programs s_task s_bg (y_trace _ _ _ (a_sys _ _ _ a))) = 2 /\
    length (taken z_step a_history a_start) = 4 /\
    let owners := [None; Some 0; None; Some 1; Some 0; None; None; None; None] in
    let tr := y_trace _ _ _ (a_sys _ _ _ a) in
    length owners = length tr /\
    (exists h h', part_of (Some 0) owners tr = [EvSend ByHandler h (PVal 77%N) TxOk; EvSend ByHandler h' (PVal 78%N) TxOk]) /\
    (exists h, part_of (Some 1) owners tr = [EvSend ByHandler h (PVal 12%N) TxOk]) /\
    (forall i p, nth_error (programs s_task s_bg tr) i = Some p -> says KK1 p (part_of (Some i) owners tr) (HRet tt)) /\
    dispatch_all (handle N N N x_std x_net (fun _ _ => true) KK1 (fun c => (c, c)) x_disp) (taken z_step a_history a_start) 0%N [] =
      (y_ctx _ _ _ (a_sys _ _ _ a), part_of None owners tr) /\ length (part_of None owners tr) = 6.
Proof.
  destruct (s_arun a_history a_start) as [[[a cl] es]|] eqn:R; [|vm_compute in R; discriminate].
  exists a, cl, es. split; [reflexivity|]. vm_compute in R. injection R as <- <- <-.
  split; [apply a_nothing_to_do; [reflexivity|at_rest_tac]|].
  split; [reflexivity|]. split; [vm_compute; reflexivity|]. intros owners tr. split; [reflexivity|].
  split; [do 2 eexists; reflexivity|]. split; [eexists; reflexivity|].
  split.
  - intros [|[|i]] p Hp; vm_compute in Hp; [injection Hp as <-..|destruct i; discriminate].
    + apply (sy_send KK1 (xk 7) (Seq1 3) (PVal 77%N)). apply (sy_send KK1 (xk 7) (Seq1 4) (PVal 78%N)). apply sy_nothing.
    + apply (sy_send KK1 (xk 13) (Seq4 1) (PVal 12%N)). apply sy_nothing.
  - split; [vm_compute; reflexivity|reflexivity].
Qed.

(** In the middle of it, the server has not finished its second frame. *)
Example C77_waiting_ex :
  exists a cl es owners more, s_arun (firstn 33 a_history) a_start = Some (a, cl, es) /\ a_cur _ _ _ a <> None /\
    length (taken z_step (firstn 33 a_history) a_start) = 2 /\ length owners = length (y_trace _ _ _ (a_sys _ _ _ a)) /\
    snd (dispatch_all (handle N N N x_std x_net (fun _ _ => true) KK1 (fun c => (c, c)) x_disp) (taken z_step (firstn 33 a_history) a_start) 0%N []) =
      part_of None owners (y_trace _ _ _ (a_sys _ _ _ a)) ++ more /\ length more = 1.
Proof.
  destruct (s_arun (firstn 33 a_history) a_start) as [[[a cl] es]|] eqn:R; [|vm_compute in R; discriminate].
  exists a, cl, es. vm_compute in R. injection R as <- <- <-. exists [None; Some 0; None; Some 1]. eexists [_].
  split; [reflexivity|]. split; [discriminate|]. split; [vm_compute; reflexivity|]. split; [reflexivity|]. split; [vm_compute; reflexivity|reflexivity].
Qed.
