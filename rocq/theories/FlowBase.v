(** Lists that are what is left of other lists. *)
From Coq Require Import NArith List Arith Lia Permutation.
From Verif Require Import UsbSpec SystemModel SubModel.
Import ListNotations.

(** *** Subsequences *)
Lemma subseq_refl {A} (l : list A) : subsequence l l.
Proof. induction l; constructor; auto. Qed.
Lemma subseq_app {A} (a1 b1 a2 b2 : list A) : subsequence a1 b1 -> subsequence a2 b2 -> subsequence (a1 ++ a2) (b1 ++ b2).
Proof.
  intros H H2. induction H; cbn; [|constructor; auto|constructor; auto].
  induction l; cbn; auto. constructor. auto.
Qed.
Lemma subseq_trans {A} (b c : list A) : subsequence b c -> forall a, subsequence a b -> subsequence a c.
Proof.
  induction 1 as [l|x b c H IH|x b c H IH]; intros a Ha.
  - inversion Ha. constructor.
  - inversion Ha; subst; constructor; auto.
  - constructor. auto.
Qed.
Lemma subseq_in {A} (a b : list A) x : subsequence a b -> In x a -> In x b.
Proof. induction 1; cbn; intros Hi; [destruct Hi|destruct Hi; auto|auto]. Qed.
Lemma subseq_filter {A} (p : A -> bool) (a b : list A) : subsequence a b -> subsequence (filter p a) (filter p b).
Proof. induction 1; cbn; [constructor|destruct (p x); [constructor|]; auto|destruct (p x); [constructor|]; auto]. Qed.
Lemma subseq_flat_map {A B} (g : A -> list B) (a b : list A) : subsequence a b -> subsequence (flat_map g a) (flat_map g b).
Proof.
  induction 1; cbn; [constructor| |]. { apply subseq_app; auto. apply subseq_refl. }
  apply (subseq_app [] (g x)); auto. constructor.
Qed.
Lemma subseq_map {A B} (g : A -> B) (a b : list A) : subsequence a b -> subsequence (map g a) (map g b).
Proof. induction 1; cbn; constructor; auto. Qed.
Lemma subseq_nodup {A} (a b : list A) : subsequence a b -> NoDup b -> NoDup a.
Proof.
  induction 1; intros Hn; [constructor| |]; inversion Hn; subst; auto.
  constructor; auto. intros Hi. eapply subseq_in in Hi; eauto.
Qed.
Lemma subseq_perm {A} (a b : list A) : subsequence a b -> exists rest, Permutation b (a ++ rest).
Proof.
  induction 1 as [l|x a b H (r & P)|x a b H (r & P)].
  - exists l. apply Permutation_refl.
  - exists r. cbn. auto.
  - exists (x :: r). eapply perm_trans; [apply perm_skip, P|]. apply Permutation_middle.
Qed.
Lemma subseq_remove {A} i (l : list A) : subsequence (remove_nth i l) l.
Proof. revert l. induction i; destruct l; cbn; constructor; auto. apply subseq_refl. Qed.
Lemma subseq_app_inv {A} (a1 a2 b : list A) : subsequence (a1 ++ a2) b -> exists b1 b2, b = b1 ++ b2 /\ subsequence a1 b1 /\ subsequence a2 b2.
Proof.
  revert a1. induction b as [|y b IH]; intros [|x a1] H; cbn [app] in H;
    try (eexists [], _; repeat split; [constructor|exact H]).
  - inversion H.
  - inversion H as [|x0 a0 b0 H1 E1 E2|x0 a0 b0 H1 E1 E2]; subst.
    + destruct (IH a1 H1) as (b1 & b2 & -> & S1 & S2). exists (y :: b1), b2. repeat split; auto. constructor; auto.
    + destruct (IH (x :: a1) H1) as (b1 & b2 & -> & S1 & S2). exists (y :: b1), b2. repeat split; auto. constructor; auto.
Qed.
Lemma subseq_forall2 {A B} (R : A -> B -> Prop) (xs' xs : list A) : subsequence xs' xs -> forall ys, Forall2 R xs ys ->
  exists ys', subsequence ys' ys /\ Forall2 R xs' ys'.
Proof.
  induction 1; intros ys F.
  - exists []. split; constructor.
  - inversion F; subst. destruct (IHsubsequence _ H4) as (ys' & S1 & F1). exists (y :: ys'). split; constructor; auto.
  - inversion F; subst. destruct (IHsubsequence _ H4) as (ys' & S1 & F1). exists ys'. split; auto. constructor; auto.
Qed.
Lemma perm_forall2 {A B} (R : A -> B -> Prop) (xs xs' : list A) : Permutation xs xs' -> forall ys, Forall2 R xs ys ->
  exists ys', Permutation ys ys' /\ Forall2 R xs' ys'.
Proof.
  induction 1; intros ys F.
  - inversion F; subst. exists []. split; constructor.
  - inversion F; subst. destruct (IHPermutation _ H4) as (ys' & P1 & F1). exists (y :: ys'). split; auto.
  - inversion F as [|? ? ? ? R1 F1]; subst. inversion F1 as [|? ? ? ? R2 F2]; subst. eexists. split; [apply perm_swap|]. constructor; auto.
  - destruct (IHPermutation1 _ F) as (y1 & P1 & F1). destruct (IHPermutation2 _ F1) as (y2 & P2 & F2). exists y2. split; auto. eapply perm_trans; eauto.
Qed.

Lemma filter_perm {A} (p : A -> bool) (l l' : list A) : Permutation l l' -> Permutation (filter p l) (filter p l').
Proof.
  induction 1; cbn [filter]; auto.
  - destruct (p x); auto.
  - destruct (p y), (p x); auto. apply perm_swap.
  - eapply perm_trans; eauto.
Qed.

(** *** What a link that loses, cuts and inserts empty frames makes of a list of frames *)
Section Thin.
  Variable R : list N -> list N -> Prop.
  Inductive thin : list (list N) -> list (list N) -> Prop :=
  | th_nil : thin [] []
  | th_lose b xs s : thin xs s -> thin xs (b :: s)
  | th_keep x b xs s : R x b -> thin xs s -> thin (x :: xs) (b :: s)
  | th_empty xs s : thin xs s -> thin ([] :: xs) s.

  Lemma thin_app xs s ys t : thin xs s -> thin ys t -> thin (xs ++ ys) (s ++ t).
  Proof. induction 1; cbn; intros; auto; [apply th_lose|apply th_keep|apply th_empty]; auto. Qed.
  Lemma thin_refl xs : (forall b, R b b) -> thin xs xs.
  Proof. intros H. induction xs; [constructor|apply th_keep; auto]. Qed.
  Lemma thin_split xs ys : forall s, thin (xs ++ ys) s -> exists s1 s2, s = s1 ++ s2 /\ thin xs s1 /\ thin ys s2.
  Proof.
    induction xs as [|x xs IH]; intros s H. { exists [], s. repeat split; auto. constructor. }
    cbn in H. remember (x :: xs ++ ys) as z eqn:Ez. revert x xs IH Ez. induction H; intros; try discriminate.
    - destruct (IHthin _ _ IH Ez) as (s1 & s2 & -> & T1 & T2). exists (b :: s1), s2. repeat split; auto. apply th_lose. auto.
    - injection Ez as -> ->. destruct (IH _ H0) as (s1 & s2 & -> & T1 & T2). exists (b :: s1), s2. repeat split; auto. apply th_keep; auto.
    - injection Ez as <- ->. destruct (IH _ H) as (s1 & s2 & -> & T1 & T2). exists s1, s2. repeat split; auto. apply th_empty; auto.
  Qed.
  Lemma thin_remove i xs : forall s, thin xs s -> thin (remove_nth i xs) s.
  Proof.
    revert xs. induction i; intros xs s H; induction H; cbn; try (constructor; auto; fail); auto.
  Qed.
  (** The frame taken goes to the end of what was received. *)
  Lemma thin_move i rs xs x s : nth_error xs i = Some x -> thin (rs ++ xs) s ->
    exists s', Permutation s s' /\ thin ((rs ++ [x]) ++ remove_nth i xs) s' /\ (i = 0 -> s' = s).
  Proof.
    intros Hn H. destruct i as [|i].
    - destruct xs as [|y xs]; [discriminate|]. injection Hn as ->. exists s. rewrite <- app_assoc. repeat split; auto.
    - assert (exists l1 l2, xs = l1 ++ x :: l2 /\ remove_nth (S i) xs = l1 ++ l2) as (l1 & l2 & -> & ->).
      { clear H rs. revert xs Hn. set (j := S i). clearbody j. clear i. induction j; intros [|y xs] Hn; try discriminate.
        - injection Hn as ->. exists [], xs. auto.
        - destruct (IHj _ Hn) as (l1 & l2 & -> & E). exists (y :: l1), l2. cbn. rewrite E. auto. }
      destruct (thin_split _ _ _ H) as (s1 & s2 & -> & T1 & T2). destruct (thin_split _ _ _ T2) as (s3 & s4 & -> & T3 & T4).
      change (x :: l2) with ([x] ++ l2) in T4. destruct (thin_split _ _ _ T4) as (s5 & s6 & -> & T5 & T6).
      exists ((s1 ++ s5) ++ s3 ++ s6). split; [|split; [|discriminate]].
      + rewrite <- app_assoc. apply Permutation_app_head. rewrite !app_assoc. apply Permutation_app_tail, Permutation_app_comm.
      + repeat apply thin_app; auto.
  Qed.
  Lemma thin_insert_empty xs ys s : thin (xs ++ ys) s -> thin (xs ++ [] :: ys) s.
  Proof. intros H. apply thin_split in H as (s1 & s2 & -> & H1 & H2). apply thin_app; auto. apply th_empty. auto. Qed.
  Lemma thin_snoc_empty xs s : thin xs s -> thin (xs ++ [[]]) s.
  Proof. intros H. rewrite <- (app_nil_r s). apply thin_app; auto. apply th_empty. constructor. Qed.
End Thin.

Lemma thin_mono (R R' : list N -> list N -> Prop) xs s : (forall x b, R x b -> R' x b) -> thin R xs s -> thin R' xs s.
Proof. intros HR. induction 1; [constructor|apply th_lose|apply th_keep|apply th_empty]; auto. Qed.
Lemma set_nth_S {A} i (y x : A) xs : set_nth (S i) y (x :: xs) = x :: set_nth i y xs.
Proof. unfold set_nth. cbn [skipn firstn]. destruct (skipn i xs); reflexivity. Qed.
Lemma thin_set (R R' : list N -> list N -> Prop) i y xs s : (forall x b, R x b -> R' x b) ->
  (forall x b, nth_error xs i = Some x -> R x b -> R' y b) -> (nth_error xs i = Some [] -> y = []) ->
  thin R xs s -> thin R' (set_nth i y xs) s.
Proof.
  intros HR. revert i. intros i G0 G1 H. revert i G0 G1. induction H; intros i G0 G1.
  - destruct i; constructor.
  - apply th_lose. auto.
  - destruct i. { apply th_keep. { apply (G0 x); auto. } eapply thin_mono; eauto. }
    rewrite set_nth_S. apply th_keep; auto.
  - destruct i. { rewrite G1 by reflexivity. apply th_empty. eapply thin_mono; eauto. } rewrite set_nth_S. apply th_empty. auto.
Qed.
