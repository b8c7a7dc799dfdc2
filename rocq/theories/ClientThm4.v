(** C31 (a delivered answer is returned), C35 (sequence number width), and concrete
    histories meeting the hypotheses of the theorems in ClientThm, ClientThm2 and
    ClientThm3. *)
From Coq Require Import NArith List Bool Arith Lia Permutation.
From Verif Require Import KeyModel HeaderModel KeySpec HeaderSpec KeyProof HeaderProof SubModel SubSpec SubProof SubThm3 ClientModel ClientSpec ClientProof ClientHist ClientMore ClientOut ClientThm ClientThm2 ClientThm3.
Import ListNotations.

(** ** C31 A request that was handed its answer can return it at once *)
Theorem C31_answer_returned :
  forall cfg c r q kk,
    nth_error (c_reqs c) r = Some q -> rq_pc q = PSent kk ->
    (forall f, rq_ok q = Some f -> exists c', step cfg (LTakeOk r) c = Some (c', [EvResult r (GotReply f)]) /\ ended c' r) /\
    (forall f, rq_err q = Some f -> exists c', step cfg (LTakeErr r) c = Some (c', [EvResult r (GotError f)]) /\ ended c' r).
Proof.
  intros cfg c r q kk Hq Hp.
  split; intros f Hf; cbn [step]; rewrite Hq, Hp, Hf; eexists; (split; [reflexivity|]);
    unfold ended; rewrite (proj1 (adopt_reqs _ _ _)); cbn [end_req c_reqs set_waiters set_req]; eexists;
    (split; [eapply set_nth_some; eauto|reflexivity]).
Qed.
Print Assumptions C31_answer_returned.

(** *** A client with three requests *)
Definition y_err : Key8 := K8 9 0 0 0 0 0 0 0.
Definition y_cfg : Config := MkConfig y_err 4 false SK4.
Definition y_k (n : N) : Key8 := K8 n 0 0 0 0 0 0 0.
(** A server's frame with one-byte key [k]. *)
Definition y_frame (k seq : N) (body : list N) : RpcFrame := MkFrame (MkHeader (VKey1 (K1 k)) (Seq4 seq)) body.
(** Request [r] goes out. *)
Definition y_out (r : nat) : list Label := [LKind r; LEnqOk r; LEnqErr r; LSend r; LOutPop; LOutSent].
Definition y_three : list Label :=
  [LRequest (y_k 1) (y_k 2) [10%N]; LRequest (y_k 1) (y_k 2) [11%N]; LRequest (y_k 3) (y_k 4) [12%N]] ++
  y_out 0 ++ y_out 1 ++ y_out 2.
(** The answers arrive in the order 2 (an error), 0, 1, mixed with a frame nobody
    asked for; request 3 is made and sent after that. *)
Definition y_answers : list Label :=
  [LRecv (rpc_to_bytes (y_frame 9 2 [1%N])); LWake (Some 5); LTakeErr 2;
   LRecv (rpc_to_bytes (y_frame 2 7 [99%N])); LWake None;
   LRecv (rpc_to_bytes (y_frame 2 0 [100%N])); LWake (Some 0);
   LRecv (rpc_to_bytes (y_frame 2 1 [101%N])); LWake (Some 1); LTakeOk 1; LTakeOk 0;
   LRequest (y_k 5) (y_k 6) [13%N]] ++ y_out 3.

Example C30_C31_C59_ex :
  match run y_cfg (y_three ++ y_answers) client_new with
  | Some (c, es) =>
    results es = [(2, GotError (y_frame 9 2 [1%N])); (1, GotReply (y_frame 2 1 [101%N])); (0, GotReply (y_frame 2 0 [100%N]))] /\
    length (arrived (y_three ++ y_answers)) = 4 /\
    c_kkind c = KK1 /\ c_in_alive c = true /\ c_offer c = None /\
    accepted (y_three ++ y_answers) es = [inl 0; inl 1; inl 2; inl 3] /\
    (* one-byte keys after the first answer *)
    wire es = [[0xE0; 1; 0; 0; 0; 0; 0; 0; 0; 0; 0; 0; 0; 10]; [0xE0; 1; 0; 0; 0; 0; 0; 0; 0; 1; 0; 0; 0; 11];
               [0xE0; 3; 0; 0; 0; 0; 0; 0; 0; 2; 0; 0; 0; 12]; [0x20; 5; 3; 0; 0; 0; 13]]%N
  | None => False
  end.
Proof. vm_compute. repeat split. Qed.

(** The hypotheses of [C31_reply_reaches_request], for request 1 in the middle. *)
Example C31_ex :
  exists c0 e0 q kk,
    run y_cfg (y_three ++ firstn 7 y_answers) client_new = Some (c0, e0) /\
    nth_error (c_reqs c0) 1 = Some q /\ rq_pc q = PSent kk /\ rq_ok q = None /\
    answers_to kk (rq_resp q) (hdr_seq (f_hdr (rq_frame q))) (y_frame 2 1 [101%N]) /\
    ~ answers_to kk y_err (hdr_seq (f_hdr (rq_frame q))) (y_frame 2 1 [101%N]) /\
    skipn 7 y_answers = LRecv (rpc_to_bytes (y_frame 2 1 [101%N])) :: skipn 8 y_answers /\
    run y_cfg (skipn 7 y_answers) c0 <> None.
Proof.
  do 4 eexists. split; [vm_compute; reflexivity|]. split; [reflexivity|]. split; [reflexivity|]. split; [reflexivity|].
  split; [vm_compute; auto|]. split; [intros [_ X]; vm_compute in X; discriminate|]. split; [reflexivity|]. vm_compute. discriminate.
Qed.

(** Cancelling request 0 while it waits: its late reply is discarded, request 1 is
    answered as before. *)
Definition y_cancel : list Label :=
  y_three ++
  [LCancel 0; LRecv (rpc_to_bytes (y_frame 2 0 [100%N])); LWake None;
   LRecv (rpc_to_bytes (y_frame 2 1 [101%N])); LWake (Some 0); LTakeOk 1].
Example C32_ex :
  match run y_cfg y_cancel client_new with
  | Some (c, es) => results es = [(1, GotReply (y_frame 2 1 [101%N]))] /\ ended c 0 /\ length (c_waiters c) = 2 /\
      In [EvDiscarded (y_frame 2 0 [100%N])] es
  | None => False
  end.
Proof. vm_compute. repeat split; [eexists; split; reflexivity|auto 50]. Qed.

(** [C34_adopts_server_length]: before and after. *)
Example C34_ex :
  let a := y_three ++ firstn 11 y_answers in
  let b := y_out 3 in
  match run y_cfg a client_new with
  | Some (c0, e0) => answers e0 <> [] /\
      (forall f, In f (arrived (a ++ b)) -> varkey_kind (hdr_key (f_hdr f)) = KK1) /\
      match run y_cfg (LRequest (y_k 5) (y_k 6) [13%N] :: b) c0 with
      | Some (c, es) => exists q, nth_error (c_reqs c) (length (c_reqs c0)) = Some q /\ rq_pc q = PSent KK1
      | None => False
      end
  | None => False
  end.
Proof.
  vm_compute. split; [discriminate|]. split; [|eexists; split; reflexivity].
  intros f H. repeat (destruct H as [<-|H]; [reflexivity|]). destruct H.
Qed.

(** Closing with requests at every stage: 0 and 1 sent (0 already answered), 2 not
    yet registered; a publication waits for room.  After the workers have ended, 1
    gets Closed, 2 too, the publication an error. *)
Definition y_close : list Label :=
  [LRequest (y_k 1) (y_k 2) [10%N]; LRequest (y_k 1) (y_k 2) [11%N]; LRequest (y_k 3) (y_k 4) [12%N]] ++
  y_out 0 ++ y_out 1 ++
  [LRecv (rpc_to_bytes (y_frame 2 0 [100%N])); LWake (Some 0); LPublish (y_frame 20 0 [5%N]);
   LClose; LInEnd; LOutEnd false; LPurge].
Example C36_ex :
  match run y_cfg y_close client_new with
  | Some (c, es) => is_closed c = true /\ c_in_alive c = false /\
      match run y_cfg [LTakeClosed 1; LKind 2; LEnqOk 2; LEnqErr 2; LSend 2; LTakeOk 0; LPubSend 0;
                       LRequest (y_k 1) (y_k 2) []; LKind 3; LEnqOk 3; LEnqErr 3; LSend 3] c with
      | Some (c', es') => results es' = [(1, Closed); (2, Closed); (0, GotReply (y_frame 2 0 [100%N])); (3, Closed)] /\
          In [EvPublished 0 false] es'
      | None => False
      end
  | None => False
  end.
Proof. vm_compute. auto 20. Qed.

(** ** C35 The configured sequence number width is used: refuted *)

(** Whatever width is configured, typed requests carry four bytes. *)
Theorem C35_configured_width_refuted :
  exists cfg req resp body ls c es h b,
    cfg_seq_kind cfg = SK1 /\
    run cfg (LRequest req resp body :: ls) client_new = Some (c, es) /\
    exists bytes, wire es = [bytes] /\ take_from_slice bytes = Done (Some (h, b)) /\
      (forall s, hdr_seq h <> Seq1 s).
Proof.
  exists (MkConfig y_err 4 false SK1), (y_k 1), (y_k 2), [10%N], (y_out 0). do 4 eexists.
  split; [reflexivity|]. split; [vm_compute; reflexivity|]. eexists. split; [vm_compute; reflexivity|].
  split; [vm_compute; reflexivity|]. intros s X; discriminate X.
Qed.
Print Assumptions C35_configured_width_refuted.

(** What holds: every typed request carries a four-byte number, so the configuration
    [SK4] is honoured; other configurations have no effect at all.  (Missing for the
    full claim: the configured width is never applied.) *)
Theorem C35_always_four_bytes_partial :
  forall cfg a req resp body b c es,
    run cfg (a ++ LRequest req resp body :: b) client_new = Some (c, es) ->
    exists q n, nth_error (c_reqs c) (length (issued 0 a)) = Some q /\ hdr_seq (f_hdr (rq_frame q)) = Seq4 n.
Proof. intros cfg a req resp body b c es H. destruct (C33_numbering _ _ _ _ _ _ _ _ H) as (q & Q & E). eauto. Qed.
Print Assumptions C35_always_four_bytes_partial.

Theorem C35_width_has_no_effect_partial :
  forall k d n s1 s2 ls c, run (MkConfig k d n s1) ls c = run (MkConfig k d n s2) ls c.
Proof.
  intros k d n s1 s2 ls. induction ls as [|l ls IH]; intros c; [reflexivity|]. cbn [run].
  assert (E : step (MkConfig k d n s1) l c = step (MkConfig k d n s2) l c) by (destruct l; reflexivity).
  rewrite E. destruct (step _ l c) as [[c1 e]|]; auto.
Qed.
Print Assumptions C35_width_has_no_effect_partial.
