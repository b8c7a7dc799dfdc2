(** Theorems about failing transfers, in the whole system over USB: C48. *)
From Coq Require Import NArith List Bool Arith Lia.
From Verif Require Import KeyModel HeaderModel KeySpec HeaderSpec MinKeyModel MinKeySpec
  SchemaModel MacroModel PostcardModel DispatchModel DispatchSpec SubModel SubSpec ClientModel ClientSpec
  UsbModel UsbSpec NusbRxModel NusbRxThm LogModel.
From Verif Require Import ClientThm4 DispatchModel DispatchSpec SystemModel SystemSpec SystemThm2 AsyncModel UsbSysModel UsbSysSpec UsbSysThm2.
Import ListNotations.

(** The transfers whose result the receiver looks at, in the order of their completion:
    [None] if it completed, and otherwise the reason for its failure.  After a stall the
    other three requests are cancelled, and their results are not looked at. *)
Fixpoint looks (cs : list Completion) : list (option TransferError) :=
  match cs with
  | [] => []
  | COk _ :: tl => None :: looks tl
  | CErr e :: tl =>
    Some e :: match e with
              | Stall | Unknown => match tl with _ :: _ :: _ :: tl => looks tl | _ => [] end
              | _ => looks tl
              end
  end.
Definition is_err (x : option TransferError) : Prop := x <> None.
(** [n] failures in a row. *)
Definition in_a_row (n : nat) (xs : list (option TransferError)) : Prop :=
  exists a b c, xs = a ++ b ++ c /\ length b = n /\ Forall is_err b.

(** *** What one receive does *)
(** [cs] is what the receiver is through with; the last [n] results were failures. *)
Definition aligned (cs : list Completion) (n : nat) : Prop :=
  (forall x, looks (cs ++ x) = looks cs ++ looks x) /\ exists a b, looks cs = a ++ b /\ length b = n /\ Forall is_err b.

Lemma aligned_nil : aligned [] 0.
Proof. split; [reflexivity|]. exists [], []. auto. Qed.
Lemma aligned_ok cs n b : aligned cs n -> aligned (cs ++ [COk b]) 0.
Proof.
  intros [A _]. split.
  - intros x. rewrite <- app_assoc, A, A. cbn [looks app]. rewrite <- app_assoc. reflexivity.
  - exists (looks (cs ++ [COk b])), []. rewrite app_nil_r. auto.
Qed.
Lemma aligned_stall cs n e x y z : is_stall e -> aligned cs n -> aligned (cs ++ [CErr e; x; y; z]) (S n).
Proof.
  intros He [A (a & b & E & L & F)]. split.
  - intros t. rewrite <- app_assoc, A, A. destruct He as [-> | ->]; cbn [looks app]; rewrite <- app_assoc; reflexivity.
  - exists a, (b ++ [Some e]). rewrite A, E. split; [destruct He as [-> | ->]; cbn [looks]; rewrite <- app_assoc; reflexivity|].
    split; [rewrite app_length; cbn; lia|]. apply Forall_app. split; [exact F|]. constructor; [discriminate|constructor].
Qed.
Lemma aligned_next cs n e x : aligned cs n -> in_a_row (S n) (looks (cs ++ CErr e :: x)) /\ In (Some e) (looks (cs ++ CErr e :: x)).
Proof.
  intros [A (a & b & E & L & F)]. rewrite A, E. split.
  - destruct (looks (CErr e :: x)) as [|y c] eqn:Lk; [destruct e; discriminate|]. assert (y = Some e) by (destruct e; cbn in Lk; congruence). subst y.
    exists a, (b ++ [Some e]), c. split; [rewrite <- !app_assoc; reflexivity|]. split; [rewrite app_length; cbn; lia|].
    apply Forall_app. split; [exact F|]. constructor; [discriminate|constructor].
  - apply in_app_iff. right. destruct e; cbn; auto.
Qed.

Lemma drain_three p cs r p' c' aw : 3 <= p -> drain_requests 3 p cs = (r, p', c', aw) ->
  (r = None /\ exists x y z, cs = x :: y :: z :: c') \/ r = Some NWaiting.
Proof.
  intros Hp H. destruct p as [|[|[|p]]]; try lia. destruct cs as [|x [|y [|z cs]]]; cbn in H; injection H as <- <- <- <-; eauto 6.
Qed.
Definition grave (halts : list bool) (xs : list (option TransferError)) : Prop :=
  (exists e, In (Some e) xs /\ ~ is_stall e) \/ In false halts \/ in_a_row 11 xs.
Lemma grave_halts h h' xs : (forall x, In x h -> In x h') -> grave h xs -> grave h' xs.
Proof. unfold grave. intros I [?|[?|?]]; auto. Qed.

Lemma recv_looks fuel : forall p errs done cs halts r p' errs' c' h' aw, p <= 4 -> errs <= 10 -> aligned done errs ->
  recv_inner fuel p errs cs halts = (r, p', errs', c', h', aw) ->
  (forall d, r = NGot d -> errs' <= 10 /\ exists used, cs = used ++ c' /\ aligned (done ++ used) errs') /\
  (forall e, r = NErr e -> forall later, grave halts (looks (done ++ cs ++ later))).
Proof.
  induction fuel as [|fuel IH]; intros p errs done cs halts r p' errs' c' h' aw Hp He Al H; cbn [recv_inner] in H.
  { injection H as <- <- <- <- <- <-. split; discriminate. }
  rewrite hydrate in H by auto.
  destruct cs as [|[d|e] tl].
  - injection H as <- <- <- <- <- <-. split; discriminate.
  - injection H as <- <- <- <- <- <-. split; [|discriminate]. intros d0 [= <-]. split; [lia|]. exists [COk d]. split; [reflexivity|]. eapply aligned_ok, Al.
  - set (rc := match e with Stall | Unknown => _ | _ => _ end) in H. destruct rc eqn:Rc.
    + assert (Hs : is_stall e /\ S errs <= 10).
      { unfold rc in Rc. unfold is_stall. destruct e; try discriminate; apply Nat.leb_le in Rc; unfold MAX_STALL_RETRIES in Rc; auto. }
      destruct Hs as [Hs Hl]. change (IN_FLIGHT_REQS - 1) with 3 in H.
      destruct (drain_requests 3 3 tl) as [[[r2 p2] c2] aw2] eqn:D. pose proof (drain_ok 3 3 tl ltac:(lia) ltac:(lia)) as Do. rewrite D in Do. destruct Do as (_ & Dp & _).
      destruct (drain_three 3 _ _ _ _ _ ltac:(lia) D) as [[-> (x & y & z & ->)]| ->].
      2: { injection H as <- <- <- <- <- <-. split; discriminate. }
      destruct (hd true halts) eqn:Hh.
      * destruct (recv_inner fuel p2 (S errs) c2 (List.tl halts)) as [[[[[r' p3] e'] cc] hh] aw'] eqn:E.
        injection H as <- <- <- <- <- <-.
        destruct (IH p2 (S errs) (done ++ [CErr e; x; y; z]) _ _ _ _ _ _ _ _ ltac:(lia) Hl (aligned_stall _ _ _ _ _ _ Hs Al) E) as [A B]. split.
        -- intros d0 E0. destruct (A d0 E0) as (A1 & used & A2 & A3). split; [exact A1|]. exists ([CErr e; x; y; z] ++ used). split; [cbn; rewrite A2; reflexivity|].
           rewrite app_assoc. exact A3.
        -- intros e0 E0 later. specialize (B e0 E0 later). rewrite <- app_assoc in B. revert B. apply grave_halts. intros b. destruct halts; [auto|right; auto].
      * injection H as <- <- <- <- <- <-. split; [discriminate|]. intros _ _ later. right. left. destruct halts as [|b halts]; [discriminate|]. cbn in Hh. subst b. left. reflexivity.
    + injection H as <- <- <- <- <- <-. split; [discriminate|]. intros e0 [= <-] later. destruct (aligned_next _ _ e (tl ++ later) Al) as [A B].
      change ((CErr e :: tl) ++ later) with (CErr e :: tl ++ later). unfold rc in Rc.
      assert (C : ~ is_stall e \/ errs = 10).
      { unfold is_stall. destruct e; try (left; intros [X|X]; discriminate); right; apply Nat.leb_gt in Rc; unfold MAX_STALL_RETRIES in Rc; lia. }
      destruct C as [C| ->]; [left; exists e; auto|right; right; exact A].
Qed.

Section T.
  Context {Val Ctx SCtx : Type}.
  Variable std : StdKeys.
  Variable can_spawn : Trace Val SCtx -> nat -> bool.
  Variable kkind : VarKeyKind.
  Variable spawn_ctxt : Ctx -> Ctx * SCtx.
  Variable d : Dispatcher Val Ctx.
  Variable enc : Payload Val -> list N.
  Variable task : nat -> SCtx -> VarHeader -> Val -> HProg Val unit.
  Variable bg : list (HProg Val unit).
  Variable cfg : Config.
  Variable txlen rxlen : nat.
  Variable consumes : bool.
  Variable mps : option nat.
  Variable outcome : nat -> list WRes.
  Notation u_step := (u_step Val Ctx SCtx std can_spawn kkind spawn_ctxt d enc task cfg txlen rxlen consumes mps outcome).
  Notation u_run := (u_run Val Ctx SCtx std can_spawn kkind spawn_ctxt d enc task cfg txlen rxlen consumes mps outcome).
  Notation u_reqs := (u_reqs Val Ctx SCtx).
  Notation u_errs := (u_errs Val Ctx SCtx).
  Notation u_comps := (u_comps Val Ctx SCtx).

  (** The IN transfers that complete or fail in a history that begins in [u], in order. *)
  Fixpoint completed (ls : list ULabel) (u : USys Val Ctx SCtx) : list Completion :=
    match ls with
    | [] => []
    | l :: tl =>
      match u_step l u with
      | None => []
      | Some (u1, _) =>
        match l with
        | UIn | UError _ | UErrorAmid _ => skipn (length (u_comps u)) (u_comps u1)
        | _ => []
        end ++ completed tl u1
      end
    end.

  Lemma quiet_step l u u' ce : u_step l u = Some (u', ce) ->
    match l with UIn | UError _ | UErrorAmid _ | URecv _ => True | _ => u_reqs u' = u_reqs u /\ u_errs u' = u_errs u /\ u_comps u' = u_comps u /\
      (forall e, ce <> Some (LInFail, e)) end.
  Proof.
    assert (C : forall u p, u_reqs (u_carry_on Val Ctx SCtx can_spawn task u p) = u_reqs u /\ u_errs (u_carry_on Val Ctx SCtx can_spawn task u p) = u_errs u /\
      u_comps (u_carry_on Val Ctx SCtx can_spawn task u p) = u_comps u).
    { intros v p. unfold u_carry_on. destruct (settle _ _ _ _ _) as [[[x y]| | |] ?]; auto. }
    destruct l; auto; cbn [UsbSysModel.u_step]; intros H.
    - destruct l; try discriminate; destruct (step _ _ _) as [[c ev]|]; try discriminate; injection H as <- <-; repeat split; auto; discriminate.
    - destruct (step _ _ _) as [[c ev]|]; try discriminate; injection H as <- <-; repeat split; auto. destruct fails; discriminate.
    - destruct (u_cur _ _ _ u); [discriminate|]. destruct (u_serving _ _ _ u); [|discriminate]. destruct (receive _ _ _) as [[f| | |] rest]; try discriminate.
      + destruct (take_from_slice f) as [[[hd bd]|]|]; try discriminate; injection H as <- <-; [|repeat split; auto; discriminate].
        edestruct C as (C1 & C2 & C3). rewrite C1, C2, C3. repeat split; auto; discriminate.
      + injection H as <- <-. repeat split; auto; discriminate.
    - destruct (u_cur _ _ _ u) as [[?|w h p k| |]|]; try discriminate. injection H as <- <-. edestruct C as (C1 & C2 & C3). rewrite C1, C2, C3. repeat split; auto; discriminate.
    - destruct (nth_error _ _) as [[?|]|]; try discriminate. destruct (send_keyed _ _ _ _ _ _ _ _ _). injection H as <- <-. repeat split; auto; discriminate.
  Qed.

  Lemma looks_run ls : forall u u' cl es done, u_run ls u = Some (u', cl, es) ->
    u_reqs u <= 4 -> u_errs u <= 10 -> aligned done (u_errs u) -> In LInFail cl ->
    (exists e, In (Some e) (looks (done ++ u_comps u ++ completed ls u)) /\ ~ is_stall e) \/
    (exists halts, In (URecv halts) ls /\ In false halts) \/
    in_a_row 11 (looks (done ++ u_comps u ++ completed ls u)).
  Proof.
    induction ls as [|l ls IH]; intros u u' cl es done R Q Q2 Al Hin; cbn [UsbSysModel.u_run] in R.
    { injection R as <- <- <-. destruct Hin. }
    cbn [completed]. destruct (u_step l u) as [[u1 ce]|] eqn:E; [|discriminate]. destruct (u_run ls u1) as [[[u2 cl1] es1]|] eqn:R1; [|discriminate].
    assert (Go : forall done1, u_reqs u1 <= 4 -> u_errs u1 <= 10 -> aligned done1 (u_errs u1) -> (forall e, ce <> Some (LInFail, e)) ->
      (exists e, In (Some e) (looks (done1 ++ u_comps u1 ++ completed ls u1)) /\ ~ is_stall e) \/
      (exists halts, In (URecv halts) (l :: ls) /\ In false halts) \/
      in_a_row 11 (looks (done1 ++ u_comps u1 ++ completed ls u1))).
    { intros done1 A B C Dn. destruct (IH u1 u2 cl1 es1 done1 R1 A B C) as [X|[(h & X & Y)|X]]; auto; [|right; left; exists h; split; [right|]; auto].
      destruct ce as [[x ev]|]; injection R as <- <- <-; [|exact Hin]. destruct Hin as [->|Hin]; [destruct (Dn ev eq_refl)|exact Hin]. }
    pose proof (quiet_step _ _ _ _ E) as Hq.
    destruct l as [l| | | | | |e|e|halts];
      try (destruct Hq as (Q3 & Q4 & Q5 & Hq); rewrite <- Q5; cbn [app]; apply Go; [rewrite Q3; exact Q|rewrite Q4; exact Q2|rewrite Q4; exact Al|exact Hq]).
    - clear Hq. assert (X : exists new, u_comps u1 = u_comps u ++ new /\ u_reqs u1 = u_reqs u /\ u_errs u1 = u_errs u /\ ce = None).
      { cbn [UsbSysModel.u_step] in E. destruct (u_in _ _ _ u) as [|p tl]; [discriminate|].
        destruct (_ || _); injection E as <- <-; cbn; [eauto 6|exists []; rewrite app_nil_r; auto]. }
      destruct X as (new & X1 & X2 & X3 & X4). rewrite X1, skipn_app, skipn_all, Nat.sub_diag. cbn [skipn app].
      rewrite app_assoc with (l := u_comps u), <- X1. apply Go; [rewrite X2; exact Q|rewrite X3; exact Q2|rewrite X3; exact Al|rewrite X4; discriminate].
    - cbn [UsbSysModel.u_step] in E. destruct (u_acc _ _ _ u); [|discriminate]. injection E as <- <-. specialize (Go done Q Q2 Al ltac:(discriminate)).
      unfold fail_transfer in Go |- *. cbn [UsbSysModel.u_comps] in Go |- *. rewrite skipn_app, skipn_all, Nat.sub_diag. cbn [skipn app].
      rewrite <- app_assoc in Go. exact Go.
    - cbn [UsbSysModel.u_step] in E. destruct (u_acc _ _ _ u); [discriminate|]. injection E as <- <-. specialize (Go done Q Q2 Al ltac:(discriminate)).
      unfold fail_transfer in Go |- *. cbn [UsbSysModel.u_comps] in Go |- *. rewrite skipn_app, skipn_all, Nat.sub_diag. cbn [skipn app].
      rewrite <- app_assoc in Go. exact Go.
    - clear Hq. cbn [UsbSysModel.u_step] in E.
      destruct (recv (u_reqs u) (u_errs u) (u_comps u) halts) as [[[[[r p'] errs'] c'] h'] aw] eqn:Rv.
      pose proof (C48_in_flight (u_reqs u) (u_errs u) (u_comps u) halts Q) as Fl. rewrite Rv in Fl. destruct Fl as (_ & _ & Q' & _).
      destruct (recv_looks _ _ _ _ _ _ _ _ _ _ _ _ Q Q2 Al Rv) as [A B].
      destruct r as [b|e| | |]; try discriminate; (destruct (step _ _ _) as [[c ev]|]; [|discriminate]); injection E as <- <-; cbn [app].
      + destruct (A b eq_refl) as (A1 & used & A2 & A3). rewrite A2, <- app_assoc, app_assoc. apply Go; cbn; auto. discriminate.
      + destruct (B e eq_refl (completed ls (MkUSys Val Ctx SCtx c (u_out _ _ _ u) (u_in _ _ _ u) (u_acc _ _ _ u) c' p' errs' (u_ctx _ _ _ u) (u_trace _ _ _ u) (u_tasks _ _ _ u) (u_serving _ _ _ u) (u_cur _ _ _ u))))
          as [X|[X|X]]; [left; exact X| |right; right; exact X].
        right. left. exists halts. split; [left; reflexivity|exact X].
  Qed.

  (** The client gives up the connection by itself only if a transfer failed for another
      reason than a stall or an unknown one, or a halt could not be cleared, or eleven
      transfers in a row failed (of those whose result is looked at). *)
  Theorem C48_connection_survives :
    forall ctx0 ls u cl es, u_run ls (usys_new Val Ctx SCtx bg ctx0) = Some (u, cl, es) -> In LInFail cl ->
      let results := looks (completed ls (usys_new Val Ctx SCtx bg ctx0)) in
      (exists e, In (Some e) results /\ ~ is_stall e) \/
      (exists halts, In (URecv halts) ls /\ In false halts) \/
      in_a_row 11 results.
  Proof.
    intros ctx0 ls u cl es R Hin. apply (looks_run ls _ _ _ _ [] R); cbn; auto; try lia. apply aligned_nil.
  Qed.
End T.
Print Assumptions C48_connection_survives.

(** Ten stalls do not keep calls from being answered; the eleventh ends the connection. *)
Definition stalled (n : nat) : list ULabel := concat (repeat [UError Stall; UError Cancelled; UError Cancelled; UError Cancelled] n).
Example C48_connection_ex :
  (exists u cl es, uu_run (stalled 10 ++ u_history) uu_bg = Some (u, cl, es) /\ ~ In LInFail cl /\
    results es = [(0, GotReply (y_frame 11 0 [5%N])); (1, GotReply (y_frame 13 1 [12%N])); (2, GotError (y_frame 6 2 [255%N]))]) /\
  exists u cl es, uu_run (stalled 10 ++ [UError Unknown; URecv []]) uu_bg = Some (u, cl, es) /\ In LInFail cl.
Proof.
  split.
  - destruct (uu_run (stalled 10 ++ u_history) uu_bg) as [[[u cl] es]|] eqn:R; [|vm_compute in R; discriminate].
    exists u, cl, es. split; [reflexivity|]. vm_compute in R. injection R as <- <- <-.
    split; [intros H; repeat (destruct H as [H|H]; [discriminate H|]); destruct H|reflexivity].
  - destruct (uu_run (stalled 10 ++ [UError Unknown; URecv []]) uu_bg) as [[[u cl] es]|] eqn:R; [|vm_compute in R; discriminate].
    exists u, cl, es. split; [reflexivity|]. vm_compute in R. injection R as <- <- <-. left. reflexivity.
Qed.
