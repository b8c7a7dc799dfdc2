(** Lemmas for C93. *)
From Coq Require Import NArith ZArith List Bool Arith Lia.
From Verif Require Import KeyModel HeaderModel HeaderSpec SubModel ClientModel ClientSpec UsbSpec.
From Verif Require Import DispatchModel DispatchSpec CodecModel WorkbookModel WorkbookSpec WorkbookThm FlowBase CauseProof.
Import ListNotations.

(** * The accelerometer *)

(** How many attempts to publish there were. *)
Notation tries os := (length (attempted os)).
Lemma quota_tries ls : forall s s' b k, accel_run ls s = Some (s', b) -> no_start b -> quota s = Some k -> tries b <= k.
Proof.
  induction ls as [|l ls IH]; intros s s' b k R Nb Q; cbn [accel_run] in R; [injection R as _ <-; cbn; lia|].
  destruct (accel_step l s) as [[s1 o]|] eqn:St; [|discriminate]. destruct (accel_run ls s1) as [[s2 os]|] eqn:R1; [|discriminate].
  injection R as -> <-.
  assert (No : no_start o) by (intros q X; apply (Nb q), in_app_iff; auto).
  assert (Ns : no_start os) by (intros q X; apply (Nb q), in_app_iff; auto).
  rewrite attempted_app, app_length.
  enough (X : exists k', quota s1 = Some k' /\ tries o + k' <= k).
  { destruct X as (k' & Q' & L). pose proof (IH _ _ _ _ R1 Ns Q'). lia. }
  unfold quota in Q |- *.
  destruct (step_shows _ _ _ _ St) as [(_ & -> & P' & S')|[(q & rq & _ & P & -> & P' & S')|[(q & rq & _ & _ & -> & ->)|(w & _ & Po)]]].
  - rewrite P', S'. destruct (locked s), (pc s); try (exists k; split; [exact Q|cbn; lia]); try (destruct (stop s); [|discriminate]; exists k; split; [exact Q|cbn; lia]).
  - rewrite P'. rewrite P in Q. injection Q as <-. exists 0. auto.
  - exists k. split; [exact Q|cbn; lia].
  - destruct (poll_shows _ _ _ _ Po) as [(-> & S')|[(q & rq & P & -> & _)|[(q & rq & P & -> & P' & _)|[(rq & P & S & -> & P')|[(rq & P & S & -> & P' & S')|
      [(n' & v' & P & S & -> & P')|[(n' & v' & P & S & -> & P' & S')|(n' & v' & P & -> & P')]]]]]]].
    + unfold poll, check in Po. destruct (pc s), w; try discriminate Po.
      * destruct (locked s); [discriminate|]. injection Po as <-. cbn. exists 0. injection Q as <-. auto.
      * destruct (stop s); discriminate Po.
      * injection Po as <-. cbn in *. rewrite Q. eauto.
      * injection Po as <-. cbn in *. rewrite Q. eauto.
      * injection Po as <-. cbn in *. rewrite Q. eauto.
      * injection Po as <-. cbn in *. rewrite Q. eauto.
      * destruct (stop s); discriminate Po.
    + destruct (No q). now left.
    + rewrite P'. exists 0. split; [reflexivity|cbn; lia].
    + rewrite P'. exists 0. split; [reflexivity|cbn; lia].
    + rewrite P, S in Q. discriminate.
    + rewrite P'. rewrite P, S in Q. injection Q as <-. exists 0. split; [reflexivity|cbn; lia].
    + rewrite P, S in Q. discriminate.
    + rewrite P'. rewrite P in Q. destruct (stop s); [|discriminate Q]. injection Q as <-. exists 0. split; [reflexivity|cbn; lia].
Qed.
Lemma stop_tries : forall ls s os, accel_run ls accel_new = Some (s, os) ->
  forall a was_busy b, os = a ++ StopAnswer was_busy :: b -> no_start b -> tries b <= (if was_busy then 1 else 0).
Proof.
  intros ls s os R a x b -> Nb. destruct (split_at_stop _ _ _ _ _ _ R) as (ls1 & ls2 & s1 & s2 & -> & R1 & St & R2).
  assert (I := reach _ _ _ R1). pose proof (v_lock _ _ _ I) as L.
  destruct (step_shows _ _ _ _ St) as [(_ & E & P & S)|[(q & rq & E & _)|[(q & rq & E & _)|(w & E & _)]]]; try discriminate E.
  injection E as ->. eapply Nat.le_trans with (m := match quota s2 with Some k => k | None => 0 end).
  - destruct (quota s2) as [k|] eqn:Q; [eapply quota_tries; eauto|]. exfalso. unfold quota in Q. rewrite P, S in Q.
    rewrite L in Q. destruct (pc s1); cbn in Q; try discriminate Q.
  - unfold quota. rewrite P, S, L. destruct (pc s1); cbn; lia.
Qed.

(** A start is confirmed once for every time it is accepted. *)
Definition is_accepted (q : N) (o : Obs) : bool := match o with Accepted q' => (q' =? q)%N | _ => false end.
Definition is_replied (q : N) (o : Obs) : bool := match o with Started q' | StartLost q' => (q' =? q)%N | _ => false end.
Definition waits (q : N) (s : Accel) : nat :=
  match pc s with AtLock q' _ | AtReply q' _ => if (q' =? q)%N then 1 else 0 | _ => 0 end.
Lemma replied_once q : forall ls s os, accel_run ls accel_new = Some (s, os) ->
  length (filter (is_replied q) os) + waits q s <= length (filter (is_accepted q) os).
Proof.
  refine (run_ind (fun _ s os => length (filter (is_replied q) os) + waits q s <= length (filter (is_accepted q) os)) _ _); [cbn; lia|].
  intros ls s os l s' o _ IH St. rewrite !filter_app, !app_length.
  enough (X : length (filter (is_replied q) o) + waits q s' <= length (filter (is_accepted q) o) + waits q s) by lia. clear IH.
  unfold waits.
  destruct (step_shows _ _ _ _ St) as [(_ & -> & P' & _)|[(q' & rq & _ & P & -> & P' & _)|[(q' & rq & _ & _ & -> & ->)|(w & _ & Po)]]].
  - rewrite P'. cbn. lia.
  - rewrite P, P'. cbn. destruct (q' =? q)%N; cbn; lia.
  - cbn. lia.
  - destruct (poll_shows _ _ _ _ Po) as [(-> & _)|[(q' & rq & P & -> & P' & _)|[(q' & rq & P & -> & P' & _)|[(rq & P & S & -> & P')|[(rq & P & S & -> & P' & S')|
      [(n' & v' & P & S & -> & P')|[(n' & v' & P & S & -> & P' & S')|(n' & v' & P & -> & P')]]]]]]]; try (rewrite P, P'; cbn; destruct (q' =? q)%N; cbn; lia);
      try (rewrite P, P'; cbn; lia).
    unfold poll, check in Po. destruct (pc s), w; try discriminate Po; try (destruct (stop s); discriminate Po); cbn [filter length].
    + destruct (locked s); [discriminate|]. injection Po as <-. cbn. destruct (seq =? q)%N; lia.
    + injection Po as <-. cbn. lia.
    + injection Po as <-. cbn. lia.
    + injection Po as <-. cbn. lia.
    + injection Po as <-. cbn. lia.
Qed.

(** Nothing is published before a start was accepted. *)
Lemma sample_accepted : forall ls s os, accel_run ls accel_new = Some (s, os) ->
  (pc s <> NoTask -> exists q, In (Accepted q) os) /\
  forall a o b, os = a ++ o :: b -> attempted [o] <> [] -> exists q, In (Accepted q) a.
Proof.
  refine (run_ind (fun _ s os => (pc s <> NoTask -> exists q, In (Accepted q) os) /\
    forall a o b, os = a ++ o :: b -> attempted [o] <> [] -> exists q, In (Accepted q) a) _ _).
  { split; [intros X; now destruct X|]. intros a o b E. destruct a; discriminate E. }
  intros ls s os l s' o _ [IH1 IH2] St.
  assert (X : (pc s <> NoTask -> exists q, In (Accepted q) (os ++ o)) /\ (attempted o <> [] -> pc s <> NoTask /\ exists x t, o = x :: t /\ attempted t = []) /\ (pc s = NoTask -> pc s' <> NoTask -> exists q, In (Accepted q) o)).
  { split; [intros X; destruct (IH1 X) as (q & Y); exists q; apply in_app_iff; auto|].
    destruct (step_shows _ _ _ _ St) as [(_ & -> & P' & _)|[(q' & rq & _ & P & -> & P' & _)|[(q' & rq & _ & _ & -> & ->)|(w & _ & Po)]]].
    - rewrite P'. split; [intros X; now destruct X|tauto].
    - split; [intros X; now destruct X|]. intros _ _. exists q'. now left.
    - split; [intros X; now destruct X|tauto].
    - destruct (poll_shows _ _ _ _ Po) as [(-> & _)|[(q' & rq & P & -> & P' & _)|[(q' & rq & P & -> & P' & _)|[(rq & P & S & -> & P')|[(rq & P & S & -> & P' & S')|
      [(n' & v' & P & S & -> & P')|[(n' & v' & P & S & -> & P' & S')|(n' & v' & P & -> & P')]]]]]]];
      try (rewrite P; split; [intros X; first [now destruct X|split; [discriminate|do 2 eexists; split; reflexivity]]|discriminate]).
      split; [intros X; now destruct X|]. intros N1. unfold poll in Po. rewrite N1 in Po. discriminate Po. }
  destruct X as (X1 & X2 & X3). split.
  - intros Hs. destruct (pc s) eqn:P; try (apply X1; discriminate). destruct (X3 eq_refl Hs) as (q & Y). exists q. apply in_app_iff. auto.
  - intros a y b E Ha. destruct (app_split _ _ _ _ _ E) as [(b' & E1 & _)|(a' & -> & E2)]; [eapply IH2; eauto|].
    assert (N1 : attempted o <> []).
    { rewrite E2, attempted_app. change (y :: b) with ([y] ++ b). rewrite attempted_app. destruct (attempted a'); [|discriminate]. destruct (attempted [y]); [contradiction|discriminate]. }
    destruct (X2 N1) as (N2 & x & t & E3 & N3). destruct (IH1 N2) as (q & Y). exists q. apply in_app_iff. now left.
Qed.

(** * Lists *)
Lemma filter_split {A} (p : A -> bool) l : forall x y, filter p l = x ++ y -> exists a b, l = a ++ b /\ filter p a = x /\ filter p b = y.
Proof.
  induction l as [|h l IH]; intros x y E; cbn [filter] in E.
  - symmetry in E. apply app_eq_nil in E as [-> ->]. exists [], []. auto.
  - destruct (p h) eqn:P.
    + destruct x as [|h' x]; cbn [app] in E.
      * subst y. exists [], (h :: l). split; [reflexivity|]. split; [reflexivity|]. cbn [filter]. now rewrite P.
      * injection E as <- E. destruct (IH _ _ E) as (a & b & -> & Ea & Eb). exists (h :: a), b. split; [reflexivity|]. split; [|exact Eb]. cbn [filter]. now rewrite P, Ea.
    + destruct (IH _ _ E) as (a & b & -> & Ea & Eb). exists (h :: a), b. split; [reflexivity|]. split; [|exact Eb]. cbn [filter]. now rewrite P, Ea.
Qed.
Lemma filter_split_one {A} (p : A -> bool) l x m y : filter p l = x ++ m :: y -> exists a b, l = a ++ m :: b /\ filter p a = x /\ filter p b = y.
Proof.
  intros E. destruct (filter_split p l x (m :: y) E) as (a & b & -> & Ea & Eb).
  revert a Ea E. induction b as [|h b IH]; intros a Ea E; [discriminate Eb|]. cbn [filter] in Eb. destruct (p h) eqn:P.
  - injection Eb as -> Eb. exists a, b. auto.
  - destruct (IH Eb (a ++ [h])) as (a' & b' & E' & Ea' & Eb').
    + rewrite filter_app. cbn [filter]. now rewrite P, app_nil_r.
    + rewrite <- app_assoc. exact E.
    + exists a', b'. rewrite <- app_assoc in E'. auto.
Qed.
Lemma filter_count {A B} (R : A -> B -> Prop) (p : A -> bool) (p' : B -> bool) l l' :
  Forall2 R l l' -> (forall x y, In y l' -> R x y -> p x = true -> p' y = true) -> length (filter p l) <= length (filter p' l').
Proof.
  induction 1 as [|x y l l' H F IH]; intros Hp; [cbn; lia|]. cbn [filter].
  assert (L : length (filter p l) <= length (filter p' l')) by (apply IH; intros; eapply Hp; eauto; now right).
  pose proof (Hp x y (or_introl eq_refl) H). destruct (p x); [rewrite H0 by reflexivity|destruct (p' y)]; cbn [length]; lia.
Qed.
Lemma subseq_length {A} (a b : list A) : subsequence a b -> length a <= length b.
Proof. induction 1; cbn [length]; lia. Qed.
Lemma filter_filter {A} (p q : A -> bool) l : (forall x, p x = true -> q x = true) -> filter p (filter q l) = filter p l.
Proof.
  intros H. induction l as [|x l IH]; [reflexivity|]. cbn [filter]. destruct (p x) eqn:P; [rewrite (H x P); cbn [filter]; now rewrite P, IH|].
  destruct (q x); cbn [filter]; rewrite ?P; exact IH.
Qed.
Lemma attempted_filter os : length (filter (fun o => match o with Sample _ _ | SampleLost _ _ => true | _ => false end) os) = tries os.
Proof. induction os as [|[] os IH]; cbn; auto. Qed.
Lemma nodup_count {A} (dec : forall x y : A, {x = y} + {x <> y}) l x : NoDup l -> length (filter (fun y => if dec y x then true else false) l) <= 1.
Proof.
  induction 1 as [|y l N1 N2 IH]; [cbn; lia|]. cbn [filter]. destruct (dec y x) as [->|]; [|exact IH]. cbn [length].
  enough (E : filter (fun y => if dec y x then true else false) l = []) by (rewrite E; cbn; lia).
  clear - N1. induction l as [|z l IH]; [reflexivity|]. cbn [filter]. destruct (dec z x) as [->|]; [destruct N1; now left|]. apply IH. intros H. apply N1. now right.
Qed.
