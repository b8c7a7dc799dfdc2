(** Theorems C08: the compile-time key length. *)
From Coq Require Import NArith List Bool Lia.
From Verif Require Import KeyModel HeaderModel KeySpec MinKeyModel MinKeySpec MinKeyProof.
Import ListNotations.
Local Open Scope N_scope.
Local Open Scope nat_scope.

(** The computed length is one of 1, 2, 4, 8; it separates all keys of all lists
    together, so does every longer length, and no shorter length does. *)
Theorem C08_collision_free_and_minimal :
  forall lists n, keys_ok (concat lists) -> min_key_needed lists = Some n ->
    permitted n /\
    (forall m, permitted m -> (distinct_at m (concat lists) <-> n <= m)).
Proof.
  intros lists n Hok E. pose proof (min_key_spec lists Hok) as H. rewrite E in H.
  destruct H as (P & D & Mi & Lo). split; auto. intros m Hm. split.
  - intros Dm. destruct (Compare_dec.le_lt_dec n m); auto. exfalso. now apply (Mi m).
  - now apply Lo.
Qed.
Print Assumptions C08_collision_free_and_minimal.

(** The computation fails exactly when some full key occurs twice. *)
Theorem C08_fails_iff_duplicate :
  forall lists, keys_ok (concat lists) ->
    (min_key_needed lists = None <-> ~ NoDup (concat lists)).
Proof.
  intros lists Hok. pose proof (min_key_spec lists Hok) as H.
  destruct (min_key_needed lists) as [n|]; [|tauto].
  destruct H as (_ & D & _). apply distinct_nodup in D. split; [discriminate|tauto].
Qed.
Print Assumptions C08_fails_iff_duplicate.

(** The size a dispatcher ends up with: at that length and every longer one,
    request keys and incoming topic keys are pairwise distinct, response keys and
    outgoing topic keys are pairwise distinct, and every handler's key is
    declared in the device's lists. *)
Theorem C08_dispatcher_size :
  forall eps tin tout hin hout htp n,
    keys_ok (map ep_req eps) -> keys_ok (map ep_resp eps) ->
    keys_ok (map snd tin) -> keys_ok (map snd tout) ->
    keys_ok hin -> keys_ok hout -> keys_ok htp ->
    needed_sz eps tin tout hin hout htp = Some n ->
    permitted n /\
    (forall m, permitted m -> n <= m ->
       distinct_at m (map ep_req eps ++ map snd tin) /\
       distinct_at m (map ep_resp eps ++ map snd tout)) /\
    incl hin (map ep_req eps) /\ incl hout (map ep_resp eps) /\ incl htp (map snd tin).
Proof. exact needed_sz_spec. Qed.
Print Assumptions C08_dispatcher_size.

(** And it is not larger than needed: a shorter length fails for one of the two
    directions. *)
Theorem C08_dispatcher_size_minimal :
  forall eps tin tout hin hout htp n,
    keys_ok (map ep_req eps) -> keys_ok (map ep_resp eps) ->
    keys_ok (map snd tin) -> keys_ok (map snd tout) ->
    needed_sz eps tin tout hin hout htp = Some n ->
    forall m, permitted m -> m < n ->
       ~ (distinct_at m (map ep_req eps ++ map snd tin) /\
          distinct_at m (map ep_resp eps ++ map snd tout)).
Proof. exact needed_sz_minimal. Qed.
Print Assumptions C08_dispatcher_size_minimal.

(** Example: two keys whose one- and two-byte compactions collide but whose
    four-byte ones do not, and a third in another list. *)
Definition exa : Key8 := K8 1 0 0 0 2 0 0 0.
Definition exb : Key8 := K8 0 0 1 0 2 0 0 0.
Definition exc : Key8 := K8 9 9 9 9 9 9 9 8.
Example C08_nontrivial :
  keys_ok (concat [[exa; exb]; [exc]]) /\ min_key_needed [[exa; exb]; [exc]] = Some 4.
Proof.
  split; [|reflexivity]. repeat constructor; cbn; unfold byte_ok; lia.
Qed.
Example C08_fails_nontrivial : min_key_needed [[exa; exb]; [exc; exa]] = None.
Proof. reflexivity. Qed.
Example C08_size_nontrivial :
  needed_sz [([1%N], exa, exb)] [([2%N], exb)] [([3%N], exc)] [exa] [exb] [exb] = Some 4.
Proof. reflexivity. Qed.
