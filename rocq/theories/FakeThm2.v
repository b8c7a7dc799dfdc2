(** Concrete histories for the theorems of FakeThm.v. *)
From Coq Require Import NArith List Bool Arith Lia.
From Verif Require Import KeyModel HeaderModel KeySpec HeaderSpec SubModel SubSpec ClientModel ClientSpec SystemModel LiveSpec FakeModel FakeSpec FakeThm.
Import ListNotations.

Definition fkey (n : N) : Key8 := K8 n 1 2 3 4 5 6 7.
Definition fk_step := f_step 1 (fkey 99) false.
Definition fk_run := f_run 1 (fkey 99) false.
Definition fk_prepare (r : nat) : list FLabel := map FClient [LKind r; LEnqOk r; LEnqErr r; LSend r].

(** Two requests and a publication; the channels have room for one frame.  The test takes
    the three frames. *)
Definition fk_first : list FLabel :=
  [FRecvStart; FClient (LRequest (fkey 10) (fkey 11) [5%N]); FClient (LRequest (fkey 12) (fkey 13) [6%N])] ++ fk_prepare 0 ++
  [FClient LOutPop] ++ fk_prepare 1 ++ [FSendStart; FSendEnd false; FClient LOutPop; FSendStart] ++
  [FClient (LPublish (MkFrame (MkHeader (VKey8 (fkey 20)) (Seq1 2)) [9%N])); FClient (LPubSend 0); FTake; FSendEnd false; FTake; FClient LOutPop; FSendStart; FSendEnd false; FTake].
(** It answers the second request first. *)
Definition fk_rest : list FLabel :=
  [FRecvEnd false; FClient (LWake (Some 2)); FClient (LTakeOk 1); FRecvStart; FSend (fake_frame (fkey 11) 0 [50%N]); FRecvEnd false; FClient (LWake (Some 0)); FClient (LTakeOk 0); FRecvStart].

Ltac fk_rest_tac :=
  let l := fresh "l" in let H := fresh "H" in intros l H;
  destruct l as [l| |p| |p| |b| |]; try discriminate H; try reflexivity; try (destruct p; reflexivity);
  destruct l; try discriminate H; try reflexivity;
  try (match goal with x : nat |- _ => destruct x as [|[|[|x]]]; reflexivity end);
  try (match goal with x : bool |- _ => destruct x; reflexivity end);
  try (match goal with x : option nat |- _ => destruct x as [[|[|x]]|]; reflexivity end).

Ltac not_in := let H := fresh in intros H; cbn in H; repeat (destruct H as [H|H]; [discriminate H|]); destruct H.

Lemma fkey_ok k n : (k < 256)%N -> (n < 4294967296)%N -> header_ok (MkHeader (VKey8 (fkey k)) (Seq4 n)).
Proof. intros H H'. split; [|exact H']. cbv [hdr_key key_ok varkey_bytes k8_bytes fkey]. repeat constructor; exact H || reflexivity. Qed.

(** The hypotheses of [C82_reply_returned] are met by the second request. *)
Example C82_reply_ex :
  exists s0 cl0 es0 sv0 s cl es sv,
    fk_run fk_first fake_new = Some (s0, cl0, es0, sv0) /\
    fk_run (fk_first ++ FSend (fake_frame (fkey 13) 1 [60%N]) :: fk_rest) fake_new = Some (s, cl, es, sv) /\
    (forall l, f_own_step l = true -> fk_step l s = None) /\
    is_closed (fk_client s) = false /\ In (inl 1) (accepted cl0 es0) /\ ~ In (LCancel 1) cl /\
    nth_error (issued 0 cl) 1 = Some (MkFrame (MkHeader (VKey8 (fkey 12)) (Seq4 1)) [6%N], fkey 13) /\
    (forall r' f' resp', r' <> 1 -> nth_error (issued 0 cl) r' = Some (f', resp') -> seq_value (hdr_seq (f_hdr f')) <> 1%N) /\
    ~ In (fkey 13) (topics_subscribed cl) /\ only_replies (sent sv) /\
    (forall key body', In (fake_frame key 1 body') (sent sv) -> key = fkey 13 \/ key = fkey 99 -> key = fkey 13 /\ body' = [60%N]) /\
    results es = [(1, GotReply (MkFrame (MkHeader (VKey8 (fkey 13)) (Seq4 1)) [60%N])); (0, GotReply (MkFrame (MkHeader (VKey8 (fkey 11)) (Seq4 0)) [50%N]))] /\
    calls_ok cl /\ fk_up s = [] /\
    got sv = [MkFrame (MkHeader (VKey8 (fkey 10)) (Seq4 0)) [5%N]; MkFrame (MkHeader (VKey8 (fkey 12)) (Seq4 1)) [6%N]; MkFrame (MkHeader (VKey8 (fkey 20)) (Seq1 2)) [9%N]].
Proof.
  destruct (fk_run fk_first fake_new) as [[[[s0 cl0] es0] sv0]|] eqn:R0; [|vm_compute in R0; discriminate].
  destruct (fk_run (fk_first ++ FSend (fake_frame (fkey 13) 1 [60%N]) :: fk_rest) fake_new) as [[[[s cl] es] sv]|] eqn:R; [|vm_compute in R; discriminate].
  exists s0, cl0, es0, sv0, s, cl, es, sv. vm_compute in R0, R. injection R0 as <- <- <- <-. injection R as <- <- <- <-.
  split; [reflexivity|]. split; [reflexivity|]. split; [fk_rest_tac|]. split; [reflexivity|]. split; [cbn; auto|]. split; [not_in|].
  split; [reflexivity|].
  split. { intros [|[|[|r']]] f' resp' Hn H; cbn in H; try discriminate; [|exfalso; apply Hn; reflexivity]. injection H as <- <-. discriminate. }
  split; [not_in|].
  split. { cbv [sent flat_map app]. repeat apply Forall_cons; [| |apply Forall_nil].
    - exists (fkey 13), 1%N, [60%N]. split; [apply fkey_ok; reflexivity|vm_compute; reflexivity].
    - exists (fkey 11), 0%N, [50%N]. split; [apply fkey_ok; reflexivity|vm_compute; reflexivity]. }
  split. { intros [a b c d e f g h] body' H _. cbn in H. destruct H as [H|[H|[]]]; [|discriminate H]. injection H; intros; subst. auto. }
  split; [reflexivity|].
  split. { intros [[|[|[|r]]]|[|[|i]]] f H; cbn in H; try discriminate; try (destruct H as (resp & H); try discriminate); injection H as <-; try intros <-; repeat split; repeat constructor. }
  split; reflexivity.
Qed.

(** After [cause_fatal_error] a frame can still get through in each direction: the checks
    made when a send or receive begins do not see an error that happens while it waits.
    Then everything ends. *)
Definition fk_late : list FLabel :=
  [FRecvStart; FClient (LRequest (fkey 10) (fkey 11) [5%N])] ++ fk_prepare 0 ++ [FClient LOutPop; FSendStart; FSend (fake_frame (fkey 30) 0 [1%N])].
Definition fk_later : list FLabel := [FSendEnd false; FRecvEnd false; FClient (LWake None); FRecvStart; FClient (LOutEnd false); FClient (LTakeClosed 0)].
Theorem C82_one_more_possible :
  exists s0 cl0 es0 sv0 s1 s2 cl es sv,
    fk_run fk_late fake_new = Some (s0, cl0, es0, sv0) /\ fk_step FFatal s0 = Some (s1, None, None) /\ fk_fatal s1 = true /\ wire es0 = [] /\ received cl0 = [] /\
    fk_run fk_later s1 = Some (s2, cl, es, sv) /\ length (wire es) = 1 /\ length (received cl) = 1 /\
    (forall l, f_own_step l = true -> fk_step l s2 = None) /\ is_closed (fk_client s2) = true /\ results es = [(0, Closed)] /\
    fk_gone s2 = false /\ length (fk_up s2) = 1.
Proof.
  destruct (fk_run fk_late fake_new) as [[[[s0 cl0] es0] sv0]|] eqn:R0; [|vm_compute in R0; discriminate].
  destruct (fk_step FFatal s0) as [[[s1 ce] fe]|] eqn:R1; [|vm_compute in R0; injection R0 as <- <- <- <-; vm_compute in R1; discriminate].
  vm_compute in R0. injection R0 as <- <- <- <-. vm_compute in R1. injection R1 as <- <- <-.
  eexists _, _, _, _, _, _, _, _, _. split; [reflexivity|]. split; [reflexivity|]. split; [reflexivity|]. split; [reflexivity|]. split; [reflexivity|].
  split; [vm_compute; reflexivity|]. split; [reflexivity|]. split; [reflexivity|]. split; [fk_rest_tac|]. split; [reflexivity|]. split; [reflexivity|]. split; reflexivity.
Qed.
Print Assumptions C82_one_more_possible.

(** A test that drops the server, and the capacity that is refused. *)
Example C82_drop_ex :
  exists s cl es sv,
    fk_run (fk_late ++ [FSendEnd false; FDrop; FRecvEnd false; FClient (LWake None); FRecvStart; FRecvEnd false; FClient (LOutEnd false); FClient (LTakeClosed 0)]) fake_new = Some (s, cl, es, sv) /\
    fk_gone s = true /\ (forall l, f_own_step l = true -> fk_step l s = None) /\ is_closed (fk_client s) = true /\ length (issued 0 cl) = 1 /\ local_setup 0 = None.
Proof.
  destruct (fk_run (fk_late ++ [FSendEnd false; FDrop; FRecvEnd false; FClient (LWake None); FRecvStart; FRecvEnd false; FClient (LOutEnd false); FClient (LTakeClosed 0)]) fake_new) as [[[[s cl] es] sv]|] eqn:R; [|vm_compute in R; discriminate].
  exists s, cl, es, sv. vm_compute in R. injection R as <- <- <- <-. split; [reflexivity|]. split; [reflexivity|]. split; [fk_rest_tac|]. split; [reflexivity|]. split; reflexivity.
Qed.
