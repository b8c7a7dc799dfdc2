(** Exactly which requests are refused for their key (C12), and exactly when the server
    stops (C14). *)
From Coq Require Import NArith List Bool Arith Lia.
From Verif Require Import KeyModel HeaderModel KeySpec HeaderSpec HeaderProof KeyProof MinKeyModel MinKeySpec MinKeyProof
  SchemaModel MacroModel PostcardModel DispatchModel DispatchSpec DispatchProof DispatchThm
  ServerModel ServerSpec ServerProof ServerThm.
Import ListNotations.

Section Exact.
  Context {Val Ctx SCtx : Type} (std : StdKeys).
  Variable net : Trace Val SCtx -> VarHeader -> Payload Val -> TxRes.
  Variable can_spawn : Trace Val SCtx -> nat -> bool.
  Variable kkind : VarKeyKind.
  Variable spawn_ctxt : Ctx -> Ctx * SCtx.
  Notation handle := (handle Val Ctx SCtx std net can_spawn kkind spawn_ctxt).
  Notation Tr := (Trace Val SCtx).

  (** For every dispatcher and every key that is long enough for it: a request is refused as
      unknown if and only if no handled key agrees with its key at the length the
      dispatcher uses. *)
  Theorem C12_refused_iff_partial :
    forall (d : Dispatcher Val Ctx) ctx hdr body (tr : Tr),
      klen (d_kind _ _ d) <= vlen (hdr_key hdr) ->
      (refused_with std kkind (hdr_seq hdr) UnknownKey ctx tr (handle d ctx hdr body tr) <->
       forall k, In k (known_keys std d) -> ~ agree_at (klen (d_kind _ _ d)) (hdr_key hdr) (VKey8 k)).
  Proof.
    intros d ctx hdr body tr L. split; [|exact (handle_unknown std net can_spawn kkind spawn_ctxt d ctx hdr body tr L)].
    intros (r & H) k Hk A.
    assert (P : pat_eqb (shrink_to (hdr_key hdr) (d_kind _ _ d)) (const_key (d_kind _ _ d) k) = true) by (now apply pat_match).
    assert (No : forall new : Tr, tr ++ new = tr ++ [EvSend ByDispatcher (out_header kkind (error_key std) (hdr_seq hdr)) (PError UnknownKey) r] ->
      dispatcher_frames new = [(out_header kkind (error_key std) (hdr_seq hdr), PError UnknownKey, r)]).
    { intros new E. apply app_inv_head in E. now rewrite E. }
    revert H. unfold DispatchModel.handle. rewrite keyb_of_spec.
    destruct (Nat.leb_spec (klen (d_kind _ _ d)) (vlen (hdr_key hdr))) as [_|L']; [|lia].
    destruct (pat_eqb _ (const_key _ (ping_req std))) eqn:Ep.
    { destruct (from_bytes_u32 body); unfold send_error, send_keyed, tx_send; intros [= _ H]; apply No in H; discriminate H. }
    destruct (pat_eqb _ (const_key _ (schemas_req std))) eqn:Es.
    { destruct (send_all_schemas_spec std net can_spawn kkind (hdr_seq hdr) (d_map _ _ d) tr) as (rs & r' & _ & E).
      rewrite E. intros [= _ H]. apply No in H. rewrite dispatcher_frames_app in H. cbn [dispatcher_frames] in H.
      apply (app_inj_tail _ []) in H. destruct H as [_ H]. discriminate H. }
    destruct Hk as [<-|[<-|Hk]]; [congruence|congruence|]. apply in_app_iff in Hk.
    destruct (match_eps_cases std net can_spawn kkind spawn_ctxt (d_kind _ _ d) (shrink_to (hdr_key hdr) (d_kind _ _ d)) (d_eps _ _ d) (d_tps _ _ d) ctx hdr body tr)
      as [(a & req & I & _ & _ & M)|[(r' & M)|[N M]]]; rewrite M; intros H.
    - destruct (ep_arm_trace _ _ _ _ _ _ _ _ _ _ _ _ _ H) as (new & E & C). symmetry in E. apply No in E.
      destruct (ea_flavor _ _ a).
      1,2: destruct C as (_ & v & [[F _]|(k' & F)]); rewrite E in F; discriminate F.
      destruct (can_spawn tr (ea_name _ _ a)); destruct C as (_ & F); rewrite E in F; [destruct F as [F _]|]; discriminate F.
    - injection H as _ H. apply No in H. discriminate H.
    - destruct Hk as [Hk|Hk]; apply in_map_iff in Hk; destruct Hk as (a & <- & Ha).
      { rewrite (N a Ha) in P. discriminate P. }
      destruct (match_tps_cases std net can_spawn kkind spawn_ctxt (d_kind _ _ d) (shrink_to (hdr_key hdr) (d_kind _ _ d)) (d_tps _ _ d) ctx hdr body tr)
        as [(b & msg & _ & _ & _ & M2)|[M2|[N2 _]]].
      + rewrite M2 in H. destruct (tp_arm_trace _ _ _ _ _ _ _ _ _ _ _ _ H) as (_ & new & E & F & _). symmetry in E. apply No in E.
        rewrite E in F. discriminate F.
      + rewrite M2 in H. injection H as _ H. rewrite <- (app_nil_r tr) in H at 1. apply No in H. discriminate H.
      + rewrite (N2 a Ha) in P. discriminate P.
  Qed.

  (** The result of the last frame that the dispatcher handed to the transport. *)
  Definition last_result (new : Tr) : option TxRes :=
    match rev (dispatcher_frames new) with
    | (_, _, r) :: _ => Some r
    | [] => None
    end.

  (** For every request: the server stops if and only if the last frame attempted for it timed out
      or met a closed connection; otherwise it goes on with what follows. *)
  Theorem C14_exactly_partial :
    forall (d : Dispatcher Val Ctx) ctx (tr : Tr) hdr body rest st' res,
      header_ok hdr ->
      serve_step std net can_spawn kkind spawn_ctxt d (ctx, tr) hdr body = (st', res) ->
      exists new, snd st' = tr ++ new /\
      run _ (serve_step std net can_spawn kkind spawn_ctxt d) (ctx, tr) (RxFrame (frame_to_bytes hdr body) :: rest) =
        match last_result new with
        | Some (TxErr TxTimeout) => (st', Returned (TxFatal TxTimeout), rest)
        | Some (TxErr TxConnectionClosed) => (st', Returned (TxFatal TxConnectionClosed), rest)
        | _ => run _ (serve_step std net can_spawn kkind spawn_ctxt d) st' rest
        end.
  Proof.
    intros d ctx tr hdr body rest st' res Hh E.
    cbn [run]. unfold frame_to_bytes. rewrite take_write by auto. rewrite E.
    unfold serve_step in E. cbn [fst snd] in E. 
    destruct (handle d ctx hdr body tr) as [[c r] tr'] eqn:Eh. injection E as <- <-.
    destruct (handle_last _ _ _ _ _ _ _ _ _ _ _ _ _ Eh) as (new & -> & M).
    exists new. split; [reflexivity|]. unfold last_result. destruct M as [[-> ->]|(l & h & p & ->)].
    - reflexivity.
    - rewrite rev_app_distr. cbn [rev app]. destruct r as [|[| |]]; reflexivity.
  Qed.
End Exact.
Print Assumptions C12_refused_iff_partial.
Print Assumptions C14_exactly_partial.

(** A key that is unknown but agrees with a handled one, and one that does not. *)
Example C12_refused_iff_ex :
  known_keys x_std x_disp = [xk 1; xk 3; xk 12; xk 10; xk 20] /\
  refused_with x_std KK1 (Seq4 1) UnknownKey 0%N [] (x_handle x_disp 0%N (MkHeader (VKey8 (K8 0 0 0 0 0 0 0 11)) (Seq4 1)) [5%N] []) /\
  ~ refused_with x_std KK1 (Seq4 1) UnknownKey 0%N [] (x_handle x_disp 0%N (MkHeader (VKey8 (K8 0 0 0 0 0 0 0 10)) (Seq4 1)) [5%N] []).
Proof.
  split; [vm_compute; reflexivity|]. split; [eexists; vm_compute; reflexivity|].
  intros (r & H). vm_compute in H. discriminate H.
Qed.

(** Both outcomes of a reply that times out. *)
Example C14_exactly_ex :
  let serve := fun net => snd (fst (run _ (x_serve net) (0%N, []) [RxFrame [0; 10; 1; 30]; RxFrame [0; 10; 2; 30]]%N)) in
  serve x_net_timeout = Waiting /\ serve (fun _ _ _ => TxErr TxTimeout) = Returned (TxFatal TxTimeout) /\
  serve (fun _ _ _ => TxErr TxOther) = Waiting.
Proof. vm_compute. auto. Qed.
