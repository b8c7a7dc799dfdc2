(** Lemmas about the subscription model. *)
From Coq Require Import NArith List Bool Arith Lia.
From Verif Require Import KeyModel HeaderModel KeyProof SubModel SubSpec.
Import ListNotations.

(** ** Lists *)
Lemma set_nth_length A n (x : A) l : length (set_nth n x l) = length l.
Proof.
  unfold set_nth. destruct (skipn n l) as [|y tl] eqn:E; auto.
  rewrite app_length, firstn_length. cbn [length].
  assert (length (skipn n l) = S (length tl)) by (rewrite E; reflexivity). rewrite skipn_length in H. lia.
Qed.
Lemma set_nth_same A n (x : A) l : n < length l -> nth_error (set_nth n x l) n = Some x.
Proof.
  intros H. unfold set_nth. destruct (skipn n l) as [|y tl] eqn:E.
  - assert (length (skipn n l) = 0) by (rewrite E; reflexivity). rewrite skipn_length in H0. lia.
  - rewrite nth_error_app2 by (rewrite firstn_length; lia). rewrite firstn_length.
    replace (n - Nat.min n (length l)) with 0 by lia. reflexivity.
Qed.
Lemma set_nth_other A n m (x : A) l : n <> m -> nth_error (set_nth n x l) m = nth_error l m.
Proof.
  intros H. unfold set_nth. destruct (skipn n l) as [|y tl] eqn:E; auto.
  rewrite <- (firstn_skipn n l) at 2. rewrite E.
  destruct (Nat.lt_ge_cases m (length (firstn n l))) as [L|L].
  - rewrite !nth_error_app1 by auto. reflexivity.
  - rewrite !nth_error_app2 by auto.
    assert (length (skipn n l) = S (length tl)) by (rewrite E; reflexivity). rewrite skipn_length in H0.
    rewrite firstn_length in *. replace (Nat.min n (length l)) with n in * by lia.
    destruct (m - n) as [|j] eqn:J; [lia|]. reflexivity.
Qed.
Lemma set_nth_some A n (x y : A) l : nth_error l n = Some y -> nth_error (set_nth n x l) n = Some x.
Proof. intros H. apply set_nth_same. apply nth_error_Some. congruence. Qed.

Lemma find_unique A (p : A -> bool) l x : In x l -> p x = true -> (forall y, In y l -> p y = true -> y = x) -> find p l = Some x.
Proof.
  induction l as [|a l IH]; cbn; [tauto|]. intros H P U. destruct (p a) eqn:Pa.
  - f_equal. apply U; auto.
  - destruct H as [->|H]; [congruence|]. apply IH; auto.
Qed.
Lemma nodup_fst_in A B (l : list (A * B)) a b b' : NoDup (map fst l) -> In (a, b) l -> In (a, b') l -> b = b'.
Proof.
  induction l as [|[x y] l IH]; cbn; [tauto|]. inversion 1; subst. intros [E|E] [E'|E'].
  - congruence.
  - exfalso. apply H2. replace x with a by congruence. now apply (in_map fst) in E'.
  - exfalso. apply H2. replace x with a by congruence. now apply (in_map fst) in E.
  - eauto.
Qed.
Lemma nodup_snd_in A B (l : list (A * B)) a a' b : NoDup (map snd l) -> In (a, b) l -> In (a', b) l -> a = a'.
Proof.
  induction l as [|[x y] l IH]; cbn; [tauto|]. inversion 1; subst. intros [E|E] [E'|E'].
  - congruence.
  - exfalso. apply H2. replace y with b by congruence. now apply (in_map snd) in E'.
  - exfalso. apply H2. replace y with b by congruence. now apply (in_map snd) in E.
  - eauto.
Qed.
Lemma nodup_map_filter A B (g : A -> B) p (l : list A) : NoDup (map g l) -> NoDup (map g (filter p l)).
Proof.
  induction l as [|a l IH]; cbn; auto. inversion 1; subst. destruct (p a); cbn; auto. constructor; auto.
  intros X. apply H2. apply in_map_iff in X. destruct X as (y & E & Y). apply filter_In in Y. rewrite <- E. apply in_map. tauto.
Qed.

(** ** replace_first *)
Lemma replace_fst k id l : map fst (replace_first k id l) = map fst l.
Proof. induction l as [|[a b] l IH]; cbn; auto. destruct (key8_eqb a k); cbn; congruence. Qed.
Lemma replace_in k id l a b : NoDup (map fst l) -> In (a, b) (replace_first k id l) ->
  (a = k /\ b = id) \/ (a <> k /\ In (a, b) l).
Proof.
  induction l as [|[x y] l IH]; cbn [replace_first fst map]; [cbn; tauto|]. inversion 1; subst.
  destruct (key8_eqb x k) eqn:E.
  - apply key8_eqb_iff in E. subst x. cbn. intros [X|X]; [injection X as <- <-; auto|].
    right. split; auto. intros ->. apply H2. now apply (in_map fst) in X.
  - intros [X|X].
    + injection X as <- <-. right. split; [|now left]. intros ->. rewrite (proj2 (key8_eqb_iff k k) eq_refl) in E. discriminate.
    + destruct (IH H3 X) as [Y|[Y1 Y2]]; auto. right. split; auto. now right.
Qed.
Lemma replace_has k id l : In k (map fst l) -> In (k, id) (replace_first k id l).
Proof.
  induction l as [|[x y] l IH]; cbn [replace_first fst map]; [cbn; tauto|]. destruct (key8_eqb x k) eqn:E.
  - apply key8_eqb_iff in E. subst x. intros _. now left.
  - intros [->|H]; [rewrite (proj2 (key8_eqb_iff k k) eq_refl) in E; discriminate|]. right. auto.
Qed.
Lemma replace_keeps k id l a b : a <> k -> In (a, b) l -> In (a, b) (replace_first k id l).
Proof.
  intros H. induction l as [|[x y] l IH]; cbn [replace_first fst]; [cbn; tauto|]. intros [X|X].
  - injection X as <- <-. destruct (key8_eqb x k) eqn:E; [apply key8_eqb_iff in E; congruence|]. now left.
  - destruct (key8_eqb x k); right; auto.
Qed.
Lemma replace_snd k id l : NoDup (map snd l) -> ~ In id (map snd l) -> NoDup (map snd (replace_first k id l)).
Proof.
  induction l as [|[x y] l IH]; cbn [replace_first fst map snd]; auto. inversion 1; subst. intros N.
  destruct (key8_eqb x k); cbn [map snd].
  - constructor; [|auto]. intros X. apply N. now right.
  - constructor; [|apply IH; auto; intros X; apply N; now right].
    intros X. apply in_map_iff in X. destruct X as ([a b] & E & X). cbn in E. subst b.
    assert (In y (map snd l) \/ y = id).
    { clear - X. induction l as [|[p q] l IH]; cbn [replace_first fst] in X; [destruct X|].
      destruct (key8_eqb p k); destruct X as [X|X]; cbn.
      - injection X as <- <-. auto.
      - left. right. now apply (in_map snd) in X.
      - injection X as <- <-. auto.
      - destruct (IH X); auto. }
    destruct H0 as [H0|H0]; [auto|]. subst. apply N. now left.
Qed.
Lemma replace_length k id l : length (replace_first k id l) = length l.
Proof. rewrite <- (map_length fst), replace_fst. apply map_length. Qed.

Lemma connected_iff id l : connected id l = true <-> exists k, In (k, id) l.
Proof.
  unfold connected. rewrite existsb_exists. split.
  - intros ([k i] & H & E). apply Nat.eqb_eq in E. cbn in E. subst. eauto.
  - intros [k H]. exists (k, id). split; auto. apply Nat.eqb_refl.
Qed.
Lemma find_key k (l : list (Key8 * nat)) e : find (fun e => key8_eqb (fst e) k) l = Some e -> fst e = k /\ In e l.
Proof. intros H. apply find_some in H. destruct H as [H E]. apply key8_eqb_iff in E. auto. Qed.
Lemma find_key_none k (l : list (Key8 * nat)) : find (fun e => key8_eqb (fst e) k) l = None -> ~ In k (map fst l).
Proof.
  intros H X. apply in_map_iff in X. destruct X as (e & E & X). apply (find_none _ _ H) in X.
  rewrite E in X. rewrite (proj2 (key8_eqb_iff k k) eq_refl) in X. discriminate.
Qed.

(** ** The invariant *)
Record Inv (tr : Trace) (s : Subs) : Prop := {
  i_keys : NoDup (map fst (exclusive_list s));
  i_ids : NoDup (map snd (exclusive_list s));
  i_in : forall k id, In (k, id) (exclusive_list s) -> obtained tr k id;
  i_lt : forall k id, obtained tr k id -> id < length (s_chans s);
  i_one : forall k k' id, obtained tr k id -> obtained tr k' id -> k = k';
  i_bkeys : NoDup (map fst (broadcast_list s));
  i_bids : NoDup (map snd (broadcast_list s));
  i_blt : forall k c, In (k, c) (broadcast_list s) -> c < length (s_bcasts s);
  i_rlt : forall r, In r (s_mrxs s) -> r_chan r < length (s_bcasts s);
  i_cap : forall ch, In ch (s_chans s) -> 0 < m_cap ch /\ length (m_queue ch) <= m_cap ch;
  i_bl : forall c f rm, s_blocked s = Some (c, f, rm) ->
         exists k, find (key_matches (hdr_key (f_hdr f))) (exclusive_list s) = Some (k, c);
  i_stop : s_stopped s = true -> exclusive_list s = [] /\ broadcast_list s = [] /\ s_blocked s = None;
  i_bk : forall k c, In (k, c) (broadcast_list s) -> exists id, obtained_multi tr k id;
  i_mlt : forall k id, obtained_multi tr k id -> id < length (s_mrxs s)
}.

Lemma inv_new : Inv [] subs_new.
Proof.
  constructor; cbn; try constructor; try tauto; try discriminate;
    unfold obtained, obtained_multi; cbn; intros; repeat match goal with H : exists _, _ |- _ => destruct H end; tauto.
Qed.

Lemma obtained_app tr e k id : obtained (tr ++ [e]) k id <->
  obtained tr k id \/ exists d, e = (SubscribeExclusive k d, ORes (Subscribed id)) \/ e = (SubscribeLegacy k d, ORes (Subscribed id)).
Proof.
  unfold obtained. split.
  - intros (d & H). rewrite !in_app_iff in H. cbn in H.
    destruct H as [[H|[H|[]]]|[H|[H|[]]]]; [left|right|left|right]; exists d; auto.
  - intros [(d & H)|(d & H)]; exists d; rewrite !in_app_iff; cbn; tauto || (destruct H; subst; auto).
Qed.
Lemma obtained_multi_app tr e k id : obtained_multi (tr ++ [e]) k id <->
  obtained_multi tr k id \/ exists d, e = (SubscribeMulti k d, ORes (Subscribed id)).
Proof.
  unfold obtained_multi. split.
  - intros (d & H). rewrite in_app_iff in H. cbn in H. destruct H as [H|[H|[]]]; [left|right]; eauto.
  - intros [(d & H)|(d & H)]; exists d; rewrite in_app_iff; cbn; auto.
Qed.

(** Facts about one subscribe. *)
Lemma sub_mpsc_cases legacy k d s s' r : subscribe_mpsc legacy k d s = (s', r) ->
  (s' = s /\ ((d = 0 /\ r = SubPanic) \/ (d <> 0 /\ s_stopped s = true /\ r = IoClosed) \/
     (d <> 0 /\ s_stopped s = false /\ legacy = false /\ r = AlreadySubscribed /\
      exists old, In (k, old) (exclusive_list s) /\ x_alive old s = true))) \/
  (d <> 0 /\ s_stopped s = false /\ r = Subscribed (length (s_chans s)) /\
   (exists l, s' = with_exclusive s l (s_chans s ++ [MkMpsc d [] true]) /\
     ((exists old, In (k, old) (exclusive_list s) /\ (legacy = true \/ x_alive old s = false) /\
                   l = replace_first k (length (s_chans s)) (exclusive_list s)) \/
      (~ In k (map fst (exclusive_list s)) /\ l = exclusive_list s ++ [(k, length (s_chans s))])))).
Proof.
  unfold subscribe_mpsc. destruct d as [|d]; [intros H; injection H as <- <-; left; auto|].
  destruct (s_stopped s) eqn:S; [intros H; injection H as <- <-; left; split; auto; right; left; repeat split; auto|].
  destruct (find _ _) as [[k' old]|] eqn:F.
  - apply find_key in F. destruct F as [E F]. cbn in E. subst k'. fold (x_alive old s).
    destruct (x_alive old s) eqn:A; destruct legacy; cbn [andb negb]; intros H; injection H as <- <-.
    + right. repeat split; auto. eexists; split; [reflexivity|]. left. exists old. auto.
    + left. split; auto. right. right. repeat split; auto. eauto.
    + right. repeat split; auto. eexists; split; [reflexivity|]. left. exists old. auto.
    + right. repeat split; auto. eexists; split; [reflexivity|]. left. exists old. auto.
  - apply find_key_none in F. intros H; injection H as <- <-. right. repeat split; auto.
    eexists; split; [reflexivity|]. right. auto.
Qed.

Lemma inv_weaken tr s e : Inv tr s ->
  (forall k d id, e <> (SubscribeExclusive k d, ORes (Subscribed id)) /\ e <> (SubscribeLegacy k d, ORes (Subscribed id)) /\
                  e <> (SubscribeMulti k d, ORes (Subscribed id))) ->
  Inv (tr ++ [e]) s.
Proof.
  intros I H.
  assert (O : forall k id, obtained (tr ++ [e]) k id -> obtained tr k id).
  { intros k id X. apply obtained_app in X. destruct X as [X|(d & [X|X])]; auto; destruct (H k d id) as (A & B & _); congruence. }
  assert (O2 : forall k id, obtained_multi (tr ++ [e]) k id -> obtained_multi tr k id).
  { intros k id X. apply obtained_multi_app in X. destruct X as [X|(d & X)]; auto; destruct (H k d id) as (_ & _ & A); congruence. }
  destruct I. constructor; auto.
  - intros k id X. apply obtained_app. eauto.
  - intros k id X. eauto.
  - intros k k' id X Y. eauto.
  - intros k c X. destruct (i_bk0 k c X) as [id Y]. exists id. apply obtained_multi_app. auto.
  - intros k id X. eauto.
Qed.

Lemma nodup_snoc A (l : list A) a : NoDup l -> ~ In a l -> NoDup (l ++ [a]).
Proof. intros H N. apply NoDup_Add with (a := a) (l := l); [|auto]. rewrite <- (app_nil_r l) at 1. apply Add_app. Qed.

Lemma inv_subscribe_mpsc tr s legacy k d s' r : Inv tr s -> s_blocked s = None -> subscribe_mpsc legacy k d s = (s', r) ->
  Inv (tr ++ [((if legacy then SubscribeLegacy k d else SubscribeExclusive k d), ORes r)]) s'.
Proof.
  intros I B H. apply sub_mpsc_cases in H. destruct H as [(-> & H)|(D & S & -> & l & -> & H)].
  - apply inv_weaken; auto. intros k' d' id'.
    assert (r <> Subscribed id') by (destruct H as [(_ & ->)|[(_ & _ & ->)|(_ & _ & _ & -> & _)]]; discriminate).
    destruct legacy; repeat split; congruence.
  - set (id := length (s_chans s)) in *.
    assert (Fresh : ~ In id (map snd (exclusive_list s))).
    { intros X. apply in_map_iff in X. destruct X as ([a b] & E & X). cbn in E. subst b.
      apply (i_in _ _ I) in X. apply (i_lt _ _ I) in X. unfold id in X. lia. }
    assert (OE : forall a b, obtained (tr ++ [(if legacy then SubscribeLegacy k d else SubscribeExclusive k d, ORes (Subscribed id))]) a b
              <-> obtained tr a b \/ (a = k /\ b = id)).
    { intros a b. rewrite obtained_app. split.
      - intros [X|(d' & X)]; auto. right. destruct legacy; destruct X as [X|X]; try discriminate; injection X; auto.
      - intros [X|(-> & ->)]; auto. right. exists d. destruct legacy; auto. }
    assert (OM : forall a b, obtained_multi (tr ++ [(if legacy then SubscribeLegacy k d else SubscribeExclusive k d, ORes (Subscribed id))]) a b
              <-> obtained_multi tr a b).
    { intros a b. rewrite obtained_multi_app. split; auto. intros [X|(d' & X)]; auto. destruct legacy; discriminate. }
    assert (LI : forall a b, In (a, b) l -> In (a, b) (exclusive_list s) \/ (a = k /\ b = id)).
    { intros a b X. destruct H as [(old & O & A & ->)|(N & ->)].
      - apply replace_in in X; [|apply (i_keys _ _ I)]. tauto.
      - apply in_app_iff in X. destruct X as [X|[X|[]]]; auto. injection X; auto. }
    destruct I. constructor; cbn [with_exclusive exclusive_list broadcast_list s_stopped s_chans s_bcasts s_mrxs s_blocked]; auto.
    + destruct H as [(old & O & A & ->)|(N & ->)]; [now rewrite replace_fst|].
      rewrite map_app. now apply nodup_snoc.
    + destruct H as [(old & O & A & ->)|(N & ->)]; [now apply replace_snd|].
      rewrite map_app. now apply nodup_snoc.
    + intros a b X. apply OE. destruct (LI a b X); auto.
    + intros a b X. apply OE in X. rewrite app_length. cbn. destruct X as [X|(-> & ->)]; [apply i_lt0 in X|unfold id]; lia.
    + intros a a' b X Y. apply OE in X, Y. destruct X as [X|(-> & ->)], Y as [Y|(-> & Y)]; subst; eauto.
      * apply i_lt0 in X. unfold id in X. lia.
      * apply i_lt0 in Y. unfold id in Y. lia.
    + intros ch X. apply in_app_iff in X. destruct X as [X|[<-|[]]]; auto. cbn. lia.
    + intros c f rm X. congruence.
    + congruence.
    + intros a c X. destruct (i_bk0 a c X) as [i Y]. exists i. now apply OM.
    + intros a i X. apply OM in X. eauto.
Qed.

Lemma inv_subscribe_multi tr s k d s' r : Inv tr s -> s_blocked s = None -> subscribe_multi k d s = (s', r) ->
  Inv (tr ++ [(SubscribeMulti k d, ORes r)]) s'.
Proof.
  intros I B H. unfold subscribe_multi in H. destruct (s_stopped s) eqn:S.
  { injection H as <- <-. apply inv_weaken; auto. intros; repeat split; discriminate. }
  assert (Ob : forall r a b, obtained (tr ++ [(SubscribeMulti k d, ORes r)]) a b <-> obtained tr a b).
  { intros r' a b. rewrite obtained_app. split; auto. intros [X|(d' & [X|X])]; auto; discriminate. }
  assert (OM : forall id a b, obtained_multi (tr ++ [(SubscribeMulti k d, ORes (Subscribed id))]) a b <-> obtained_multi tr a b \/ (a = k /\ b = id)).
  { intros id a b. rewrite obtained_multi_app. split.
    - intros [X|(d' & X)]; auto. right. injection X; auto.
    - intros [X|(-> & ->)]; eauto. }
  destruct (find _ _) as [[k' c]|] eqn:F.
  - injection H as <- <-. apply find_key in F. cbn in F. destruct F as [-> F].
    destruct I. constructor; cbn [exclusive_list broadcast_list s_stopped s_chans s_bcasts s_mrxs s_blocked]; auto.
    + intros a b X. apply Ob; auto.
    + intros a b X. apply Ob in X. eauto.
    + intros a a' b X Y. apply Ob in X, Y. eauto.
    + intros r X. apply in_app_iff in X. destruct X as [X|[<-|[]]]; auto. cbn. eauto.
    + congruence.
    + intros a b X. destruct (i_bk0 a b X) as [i Y]. exists i. apply OM. auto.
    + intros a i X. apply OM in X. rewrite app_length. cbn. destruct X as [X|(-> & ->)]; [apply i_mlt0 in X|]; lia.
  - destruct d as [|d]; [injection H as <- <-; apply inv_weaken; auto; intros; repeat split; discriminate|].
    injection H as <- <-. apply find_key_none in F. set (c := length (s_bcasts s)) in *.
    assert (Fresh : ~ In c (map snd (broadcast_list s))).
    { intros X. apply in_map_iff in X. destruct X as ([a b] & E & X). cbn in E. subst b. apply (i_blt _ _ I) in X. unfold c in X. lia. }
    destruct I. constructor; cbn [exclusive_list broadcast_list s_stopped s_chans s_bcasts s_mrxs s_blocked]; auto.
    + intros a b X. apply Ob; auto.
    + intros a b X. apply Ob in X. eauto.
    + intros a a' b X Y. apply Ob in X, Y. eauto.
    + rewrite map_app. now apply nodup_snoc.
    + rewrite map_app. now apply nodup_snoc.
    + intros a b X. rewrite app_length. cbn. apply in_app_iff in X. destruct X as [X|[X|[]]].
      * apply i_blt0 in X. lia.
      * injection X as <- <-. unfold c. lia.
    + intros r X. rewrite app_length. cbn. apply in_app_iff in X. destruct X as [X|[<-|[]]]; [apply i_rlt0 in X|cbn; unfold c]; lia.
    + congruence.
    + intros a b X. apply in_app_iff in X. destruct X as [X|[X|[]]].
      * destruct (i_bk0 a b X) as [i Y]. exists i. apply OM. auto.
      * injection X as <- <-. eexists. apply OM. auto.
    + intros a i X. apply OM in X. rewrite app_length. cbn. destruct X as [X|(-> & ->)]; [apply i_mlt0 in X|]; lia.
Qed.

(** Steps that only touch channel contents, receivers, or remove entries. *)
Lemma inv_shrink tr s s' : Inv tr s ->
  (exists p, exclusive_list s' = filter p (exclusive_list s)) ->
  (exists p, broadcast_list s' = filter p (broadcast_list s)) ->
  length (s_chans s') = length (s_chans s) ->
  length (s_bcasts s') = length (s_bcasts s) ->
  length (s_mrxs s') = length (s_mrxs s) ->
  (forall r, In r (s_mrxs s') -> r_chan r < length (s_bcasts s)) ->
  (forall ch, In ch (s_chans s') -> 0 < m_cap ch /\ length (m_queue ch) <= m_cap ch) ->
  (forall c f rm, s_blocked s' = Some (c, f, rm) -> exists k, find (key_matches (hdr_key (f_hdr f))) (exclusive_list s') = Some (k, c)) ->
  (s_stopped s' = true -> exclusive_list s' = [] /\ broadcast_list s' = [] /\ s_blocked s' = None) ->
  Inv tr s'.
Proof.
  intros I [p P] [q Q] LC LB LM R C B S. destruct I.
  assert (IE : forall a, In a (exclusive_list s') -> In a (exclusive_list s)) by (intros a X; rewrite P in X; apply filter_In in X; tauto).
  assert (IB : forall a, In a (broadcast_list s') -> In a (broadcast_list s)) by (intros a X; rewrite Q in X; apply filter_In in X; tauto).
  constructor; auto.
  - rewrite P. now apply nodup_map_filter.
  - rewrite P. now apply nodup_map_filter.
  - intros k id X. rewrite LC. eauto.
  - rewrite Q. now apply nodup_map_filter.
  - rewrite Q. now apply nodup_map_filter.
  - intros k c X. rewrite LB. eauto.
  - intros r X. rewrite LB. auto.
  - intros k c X. eauto.
  - intros k id X. rewrite LM. eauto.
Qed.

Lemma filter_true A (l : list A) : filter (fun _ => true) l = l.
Proof. induction l; cbn; congruence. Qed.
Lemma retain_filter b key l : exists p, retain b key l = filter p l.
Proof. destruct b; cbn; eauto. exists (fun _ => true). now rewrite filter_true. Qed.

Lemma in_set_nth A n (x y : A) l : In y (set_nth n x l) -> y = x \/ In y l.
Proof.
  unfold set_nth. destruct (skipn n l) as [|z tl] eqn:E; auto. intros H. apply in_app_iff in H.
  rewrite <- (firstn_skipn n l), E. destruct H as [H|[H|H]]; auto; right; apply in_app_iff; auto. right. now right.
Qed.

Lemma try_send_spec c f chans chans' r : mpsc_try_send c f chans = (chans', r) ->
  length chans' = length chans /\
  (r <> TsOk -> chans' = chans) /\
  match r with
  | TsOk => exists ch, nth_error chans c = Some ch /\ m_rx ch = true /\ length (m_queue ch) < m_cap ch /\
                       chans' = set_nth c (MkMpsc (m_cap ch) (m_queue ch ++ [f]) true) chans
  | TsFull => exists ch, nth_error chans c = Some ch /\ m_rx ch = true /\ m_cap ch <= length (m_queue ch)
  | TsClosed => forall ch, nth_error chans c = Some ch -> m_rx ch = false
  end.
Proof.
  unfold mpsc_try_send. destruct (nth_error chans c) as [ch|] eqn:E.
  - destruct (m_rx ch) eqn:R.
    + destruct (Nat.ltb_spec (length (m_queue ch)) (m_cap ch)); intros H0; injection H0 as <- <-.
      * rewrite set_nth_length. repeat split; try congruence. eauto.
      * repeat split; auto. eauto.
    + intros H0; injection H0 as <- <-. repeat split; auto. intros ch' X. congruence.
  - intros H0; injection H0 as <- <-. repeat split; auto. discriminate.
Qed.

Lemma caps_after_send tr s c f chans r : Inv tr s -> mpsc_try_send c f (s_chans s) = (chans, r) ->
  forall ch, In ch chans -> 0 < m_cap ch /\ length (m_queue ch) <= m_cap ch.
Proof.
  intros I H ch X. destruct (try_send_spec _ _ _ _ _ H) as (L & N & M). destruct r.
  - destruct M as (ch0 & E & R & Q & ->). apply in_set_nth in X. destruct X as [->|X].
    + cbn. rewrite app_length. cbn. lia.
    + now apply (i_cap _ _ I).
  - rewrite N in X by discriminate. now apply (i_cap _ _ I).
  - rewrite N in X by discriminate. now apply (i_cap _ _ I).
Qed.

Lemma bcast_send_spec c f s bs failed : bcast_send c f s = (bs, failed) ->
  length bs = length (s_bcasts s) /\
  (failed = true -> has_receiver c (s_mrxs s) = false /\ bs = s_bcasts s) /\
  (failed = false -> has_receiver c (s_mrxs s) = true /\
     forall b, nth_error (s_bcasts s) c = Some b -> bs = set_nth c (MkBcast (b_cap b) (b_log b ++ [f])) (s_bcasts s)).
Proof.
  unfold bcast_send. destruct (has_receiver c (s_mrxs s)).
  - destruct (nth_error (s_bcasts s) c) as [b|] eqn:E; intros H; injection H as <- <-; rewrite ?set_nth_length;
      repeat split; try discriminate; intros; congruence.
  - intros H; injection H as <- <-. repeat split; auto; discriminate.
Qed.

(** [deliver] in three parts. *)
Definition deliver_mul (f : RpcFrame) (s : Subs) : list Bcast * bool * bool :=
  match find (key_matches (hdr_key (f_hdr f))) (broadcast_list s) with
  | Some (_, c) => let '(bs, failed) := bcast_send c f s in (bs, true, failed)
  | None => (s_bcasts s, false, false)
  end.
Lemma deliver_eq nw f s :
  deliver nw f s =
    let key := hdr_key (f_hdr f) in
    let '(bs, h1, rm) := deliver_mul f s in
    match find (key_matches key) (exclusive_list s) with
    | Some (_, c) =>
      let '(chans, r) := mpsc_try_send c f (s_chans s) in
      let s2 := MkSubs (exclusive_list s) (broadcast_list s) (s_stopped s) chans bs (s_mrxs s) (s_blocked s) in
      match r with
      | TsOk => (finish key false rm s2, Handled)
      | TsFull => if nw then (finish key false rm s2, Handled)
                  else (MkSubs (exclusive_list s) (broadcast_list s) (s_stopped s) chans bs (s_mrxs s) (Some (c, f, rm)), Blocking)
      | TsClosed => (finish key true rm s2, Handled)
      end
    | None => (finish key false rm (MkSubs (exclusive_list s) (broadcast_list s) (s_stopped s) (s_chans s) bs (s_mrxs s) (s_blocked s)),
               if h1 then Handled else NotHandled)
    end.
Proof.
  unfold deliver, deliver_mul. cbv zeta. destruct (find (key_matches (hdr_key (f_hdr f))) (broadcast_list s)) as [[k c]|].
  - destruct (bcast_send c f s) as [bs failed]. cbn [exclusive_list s_chans].
    destruct (find (key_matches (hdr_key (f_hdr f))) (exclusive_list s)) as [[k2 c2]|]; [|reflexivity].
    destruct (mpsc_try_send c2 f (s_chans s)) as [chans []]; reflexivity.
  - destruct s as [el bl st ch bc mr bk]. cbn [exclusive_list s_chans broadcast_list s_stopped s_bcasts s_mrxs s_blocked].
    destruct (find (key_matches (hdr_key (f_hdr f))) el) as [[k2 c2]|]; [|reflexivity].
    destruct (mpsc_try_send c2 f ch) as [chans []]; reflexivity.
Qed.

Lemma deliver_mul_spec f s bs h1 rm : deliver_mul f s = (bs, h1, rm) ->
  length bs = length (s_bcasts s) /\
  (h1 = false -> bs = s_bcasts s /\ rm = false /\ forall e, In e (broadcast_list s) -> key_matches (hdr_key (f_hdr f)) e = false).
Proof.
  unfold deliver_mul. destruct (find _ _) as [[k c]|] eqn:F.
  - destruct (bcast_send c f s) as [bs' failed] eqn:E. intros H. injection H as <- <- <-.
    destruct (bcast_send_spec _ _ _ _ _ E). split; auto. discriminate.
  - intros H. injection H as <- <- <-. repeat split; auto. intros e. apply (find_none _ _ F).
Qed.

Ltac shrink_side I :=
  cbn [finish with_exclusive exclusive_list broadcast_list s_stopped s_chans s_bcasts s_mrxs s_blocked];
  try solve [ reflexivity | apply retain_filter | exists (fun _ => true); now rewrite filter_true | discriminate
            | apply (i_rlt _ _ I) | apply (i_cap _ _ I) | apply set_nth_length ].

Lemma inv_deliver tr s nw f s' d : Inv tr s -> s_blocked s = None -> s_stopped s = false -> deliver nw f s = (s', d) -> Inv tr s'.
Proof.
  intros I B S H. rewrite deliver_eq in H. cbv zeta in H.
  destruct (deliver_mul f s) as [[bs h1] rm] eqn:DM. destruct (deliver_mul_spec _ _ _ _ _ DM) as [LB _].
  destruct (find _ (exclusive_list s)) as [[k c]|] eqn:F.
  - destruct (mpsc_try_send c f (s_chans s)) as [chans r] eqn:T.
    pose proof (caps_after_send _ _ _ _ _ _ I T) as CA. destruct (try_send_spec _ _ _ _ _ T) as (LC & _ & _).
    destruct r; [|destruct nw|]; injection H as <- <-; apply (inv_shrink tr s); auto; shrink_side I; try congruence.
    + intros c0 f0 rm0 X. injection X as <- <- <-. eauto.
  - injection H as <- <-. apply (inv_shrink tr s); auto; shrink_side I; congruence.
Qed.

Lemma inv_unblock tr s w s' : Inv tr s -> unblock w s = Some s' -> Inv tr s'.
Proof.
  intros I H. unfold unblock in H. destruct (s_blocked s) as [[[c f] rm]|] eqn:B; [|discriminate].
  assert (S : s_stopped s = false). { destruct (s_stopped s) eqn:S; auto. apply (i_stop _ _ I) in S. destruct S as (_ & _ & S). congruence. }
  destruct (mpsc_try_send c f (s_chans s)) as [chans r] eqn:T.
  pose proof (caps_after_send _ _ _ _ _ _ I T) as CA. destruct (try_send_spec _ _ _ _ _ T) as (LC & _ & _).
  destruct w, r; try discriminate; injection H as <-; apply (inv_shrink tr s); auto; shrink_side I; congruence.
Qed.

Section Steps.
  Variable nw : bool.
  Notation sub_step := (sub_step nw).
  Notation sub_run := (sub_run nw).

  Lemma inv_step tr s o s' out : Inv tr s -> sub_step o s = Some (s', out) -> Inv (tr ++ [(o, out)]) s'.
  Proof.
    intros I H. unfold SubModel.sub_step in H. destruct o.
    - destruct (blocked s) eqn:B; [discriminate|]. unfold blocked in B. destruct (s_blocked s) eqn:B2; [discriminate|].
      destruct (subscribe_mpsc false k depth s) as [s1 r] eqn:E. injection H as <- <-.
      now apply (inv_subscribe_mpsc tr s false).
    - destruct (blocked s) eqn:B; [discriminate|]. unfold blocked in B. destruct (s_blocked s) eqn:B2; [discriminate|].
      destruct (subscribe_mpsc true k depth s) as [s1 r] eqn:E. injection H as <- <-.
      now apply (inv_subscribe_mpsc tr s true).
    - destruct (blocked s) eqn:B; [discriminate|]. unfold blocked in B. destruct (s_blocked s) eqn:B2; [discriminate|].
      destruct (subscribe_multi k depth s) as [s1 r] eqn:E. injection H as <- <-. now apply (inv_subscribe_multi tr s).
    - destruct (blocked s) eqn:B; [discriminate|]. unfold blocked in B. destruct (s_blocked s) eqn:B2; [discriminate|]. cbn [orb] in H.
      destruct (s_stopped s) eqn:S; [discriminate|]. destruct (deliver nw f s) as [s1 d] eqn:E. injection H as <- <-.
      apply inv_weaken; [|intros; repeat split; discriminate]. eapply inv_deliver; eauto.
    - destruct (unblock w s) as [s1|] eqn:E; [|discriminate]. injection H as <- <-.
      apply inv_weaken; [|intros; repeat split; discriminate]. eapply inv_unblock; eauto.
    - destruct (x_alive id s); [|discriminate]. destruct (recv_exclusive id s) as [s1 r] eqn:E. injection H as <- <-.
      apply inv_weaken; [|intros; repeat split; discriminate]. unfold recv_exclusive in E.
      destruct (nth_error (s_chans s) id) as [ch|] eqn:N; [|injection E as <- <-; auto].
      destruct (m_queue ch) as [|f q] eqn:Q; [destruct (connected _ _); injection E as <- <-; auto|]. injection E as <- <-.
      apply (inv_shrink tr s); auto; shrink_side I; try (apply (i_bl _ _ I)); try (apply (i_stop _ _ I)).
      intros ch' X. apply in_set_nth in X. destruct X as [->|X]; [|now apply (i_cap _ _ I)]. cbn.
      apply nth_error_In in N. apply (i_cap _ _ I) in N. rewrite Q in N. cbn in N. lia.
    - destruct (m_alive id s); [|discriminate]. destruct (recv_multi id s) as [s1 r] eqn:E. injection H as <- <-.
      apply inv_weaken; [|intros; repeat split; discriminate]. unfold recv_multi in E.
      destruct (nth_error (s_mrxs s) id) as [rx|] eqn:N; [|injection E as <- <-; auto].
      destruct (nth_error (s_bcasts s) (r_chan rx)) as [b|]; [|injection E as <- <-; auto].
      assert (G : forall n, Inv tr (MkSubs (exclusive_list s) (broadcast_list s) (s_stopped s) (s_chans s) (s_bcasts s)
                              (set_nth id (MkMrx (r_chan rx) n (r_alive rx)) (s_mrxs s)) (s_blocked s))).
      { intros n. apply (inv_shrink tr s); auto; shrink_side I; try (apply (i_bl _ _ I)); try (apply (i_stop _ _ I)).
        intros r' X. apply in_set_nth in X. destruct X as [->|X]; [|now apply (i_rlt _ _ I)]. cbn.
        apply nth_error_In in N. now apply (i_rlt _ _ I) in N. }
      destruct (_ <? _); [injection E as <- <-; auto|]. destruct (nth_error (b_log b) (r_next rx)); [injection E as <- <-; auto|].
      destruct (connected _ _); injection E as <- <-; auto.
    - destruct (x_alive id s); [|discriminate]. injection H as <- <-.
      apply inv_weaken; [|intros; repeat split; discriminate]. unfold drop_exclusive.
      destruct (nth_error (s_chans s) id) as [ch|] eqn:N; auto.
      apply (inv_shrink tr s); auto; shrink_side I; try (apply (i_bl _ _ I)); try (apply (i_stop _ _ I)).
      intros ch' X. apply in_set_nth in X. destruct X as [->|X]; [|now apply (i_cap _ _ I)]. cbn.
      apply nth_error_In in N. apply (i_cap _ _ I) in N. lia.
    - destruct (m_alive id s); [|discriminate]. injection H as <- <-.
      apply inv_weaken; [|intros; repeat split; discriminate]. unfold drop_multi.
      destruct (nth_error (s_mrxs s) id) as [rx|] eqn:N; auto.
      apply (inv_shrink tr s); auto; shrink_side I; try (apply (i_bl _ _ I)); try (apply (i_stop _ _ I)).
      intros r' X. apply in_set_nth in X. destruct X as [->|X]; [|now apply (i_rlt _ _ I)]. cbn.
      apply nth_error_In in N. now apply (i_rlt _ _ I) in N.
    - injection H as <- <-. apply inv_weaken; [|intros; repeat split; discriminate].
      apply (inv_shrink tr s); auto; shrink_side I; cbn; try (exists (fun _ => false); clear; induction (exclusive_list s); auto; fail);
        try (exists (fun _ => false); clear; induction (broadcast_list s); auto; fail); auto.
  Qed.

  Lemma inv_run ops : forall tr s s' outs, Inv tr s -> sub_run ops s = Some (s', outs) ->
    length outs = length ops /\ Inv (tr ++ combine ops outs) s'.
  Proof.
    induction ops as [|o ops IH]; intros tr s s' outs I H; cbn [SubModel.sub_run] in H.
    - injection H as <- <-. cbn. rewrite app_nil_r. auto.
    - destruct (sub_step o s) as [[s1 e]|] eqn:E1; [|discriminate].
      destruct (sub_run ops s1) as [[s2 es]|] eqn:E2; [|discriminate]. injection H as <- <-.
      destruct (IH _ _ _ _ (inv_step _ _ _ _ _ I E1) E2) as [L I2]. cbn [length combine]. split; [congruence|].
      rewrite <- app_assoc in I2. exact I2.
  Qed.

  Lemma reach_inv ops s outs : sub_run ops subs_new = Some (s, outs) -> Inv (combine ops outs) s.
  Proof. intros H. destruct (inv_run ops [] _ _ _ inv_new H) as [_ I]. exact I. Qed.

  Lemma run_app a b s : sub_run (a ++ b) s =
    match sub_run a s with
    | None => None
    | Some (s1, o1) => match sub_run b s1 with None => None | Some (s2, o2) => Some (s2, o1 ++ o2) end
    end.
  Proof.
    revert s. induction a as [|o a IH]; intros s; cbn [app SubModel.sub_run].
    - destruct (sub_run b s) as [[? ?]|]; reflexivity.
    - destruct (sub_step o s) as [[s1 e]|]; auto. rewrite IH. destruct (sub_run a s1) as [[s2 o2]|]; auto.
      destruct (sub_run b s2) as [[s3 o3]|]; auto.
  Qed.
End Steps.
