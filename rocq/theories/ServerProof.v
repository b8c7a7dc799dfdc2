(** Lemmas about the receive loop. *)
From Coq Require Import NArith List.
From Verif Require Import KeyModel HeaderModel KeySpec HeaderSpec KeyProof HeaderProof DispatchModel ServerModel ServerSpec.
Import ListNotations.

Section S.
  Context {St : Type} (handle : St -> VarHeader -> list N -> St * TxRes).
  Notation run := (run St handle).

  Definition run_post (st : St) (rxs : list RxRes) (st' : St) (status : RunStatus) (rest : list RxRes) : Prop :=
    exists consumed frames rs,
      rxs = consumed ++ rest /\ frames_of consumed frames /\ dispatched handle st frames rs st' /\
      match status with
      | Waiting => rest = [] /\ (forall r, In r rs -> ~ fatal r) /\ ~ In (RxErr RxConnectionClosed) consumed
      | Returned (RxFatal k) => k = RxConnectionClosed /\ (forall r, In r rs -> ~ fatal r) /\
          exists pre, consumed = pre ++ [RxErr RxConnectionClosed] /\ ~ In (RxErr RxConnectionClosed) pre
      | Returned (TxFatal k) => exists rs0, rs = rs0 ++ [TxErr k] /\ fatal (TxErr k) /\
          (forall r, In r rs0 -> ~ fatal r) /\ ~ In (RxErr RxConnectionClosed) consumed
      | RunPanicked => False
      end.

  Lemma post_skip st r rxs st' status rest :
    (forall l frs, frames_of l frs -> frames_of (r :: l) frs) -> r <> RxErr RxConnectionClosed ->
    run_post st rxs st' status rest -> run_post st (r :: rxs) st' status rest.
  Proof.
    intros F N (c & frs & rs & -> & Fr & D & M). exists (r :: c), frs, rs.
    split; [reflexivity|]. split; [auto|]. split; [auto|].
    destruct status as [|[k|k]|]; cbn.
    - destruct M as (-> & M1 & M2). repeat split; auto. intros [E|E]; auto.
    - destruct M as (rs0 & -> & M1 & M2 & M3). exists rs0. repeat split; auto. intros [E|E]; auto.
    - destruct M as (-> & M1 & pre & -> & M2). repeat split; auto. exists (r :: pre). split; auto. intros [E|E]; auto.
    - auto.
  Qed.
  Lemma post_frame st h b st1 r rxs st' status rest : header_ok h ->
    handle st h b = (st1, r) -> ~ fatal r -> run_post st1 rxs st' status rest ->
    run_post st (RxFrame (write_to_vec h ++ b) :: rxs) st' status rest.
  Proof.
    intros Hh Ha Nf (c & frs & rs & -> & Fr & D & M).
    exists (RxFrame (write_to_vec h ++ b) :: c), ((h, b) :: frs), (r :: rs).
    split; [reflexivity|]. split; [constructor; auto; now apply write_to_vec_layout|].
    split; [econstructor; eauto|].
    destruct status as [|[k|k]|]; cbn.
    - destruct M as (-> & M1 & M2). repeat split; auto. intros x [<-|E]; auto. intros [E|E]; [discriminate|auto].
    - destruct M as (rs0 & -> & M1 & M2 & M3). exists (r :: rs0). repeat split; auto.
      intros x [<-|E]; auto. intros [E|E]; [discriminate|auto].
    - destruct M as (-> & M1 & pre & -> & M2). repeat split; auto. intros x [<-|E]; auto.
      exists (RxFrame (write_to_vec h ++ b) :: pre). split; auto. intros [E|E]; [discriminate|auto].
    - auto.
  Qed.

  Lemma run_spec : forall rxs st st' status rest, Forall rx_ok rxs ->
    run st rxs = (st', status, rest) -> run_post st rxs st' status rest.
  Proof.
    induction rxs as [|r rxs IH]; intros st st' status rest Hok H.
    { injection H as <- <- <-. exists [], [], []. repeat split; auto; constructor. }
    inversion Hok as [|? ? Hr Hok']; subst. destruct r as [used|k]; cbn [ServerModel.run] in H.
    - cbn in Hr. destruct (take_total used Hr) as [o Ho]. rewrite Ho in H. destruct o as [[h b]|].
      + destruct (take_inv used h b Hr Ho) as [-> Hh].
        destruct (handle st h b) as [st1 res] eqn:Ha. destruct res as [|[| |]].
        1,3: eapply post_frame; eauto; intros [E|E]; discriminate.
        all: injection H as <- <- <-;
          exists [RxFrame (write_to_vec h ++ b)], [(h, b)]; eexists [_];
          (split; [reflexivity|]); (split; [constructor; auto; [now apply write_to_vec_layout|constructor]|]);
          (split; [econstructor; [eauto|constructor]|]);
          exists []; unfold fatal; (split; [reflexivity|]); (split; [auto|]);
          (split; [intros ? []|]); intros [E|[]]; discriminate.
      + eapply post_skip; eauto; [|discriminate]. intros l frs Hl. apply fo_bad; auto.
        intros A. apply accept_iff in A; auto. destruct A as (h & rest' & E). congruence.
    - destruct k.
      + injection H as <- <- <-. exists [RxErr RxConnectionClosed], [], [].
        repeat split; try (repeat constructor; fail).
        * intros ? [].
        * exists []. split; [reflexivity|]. intros [].
      + eapply post_skip; eauto; [|discriminate]. intros; now constructor.
      + eapply post_skip; eauto; [|discriminate]. intros; now constructor.
  Qed.

  Lemma run_app : forall a b st st1 status rest, run st a = (st1, status, rest) ->
    run st (a ++ b) = match status with Waiting => run st1 b | _ => (st1, status, rest ++ b) end.
  Proof.
    induction a as [|r a IH]; intros b st st1 status rest H; cbn [app].
    { injection H as <- <- <-. reflexivity. }
    cbn [ServerModel.run] in *. destruct r as [used|[| |]]; eauto.
    - destruct (take_from_slice used) as [[[h bd]|]|]; eauto.
      + destruct (handle st h bd) as [st2 [|[| |]]]; eauto; now injection H as <- <- <-.
      + now injection H as <- <- <-.
    - now injection H as <- <- <-.
  Qed.
End S.
