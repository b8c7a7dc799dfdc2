(** Lemmas about the compile-time key-length computation. *)
From Coq Require Import NArith ZArith List Bool Arith Lia ZifyBool ZifyNat ZifyN FinFun.
From Verif Require Import KeyModel HeaderModel KeySpec KeyProof HeaderProof MinKeyModel MinKeySpec.
Import ListNotations.
Ltac Zify.zify_post_hook ::= Z.div_mod_to_equations.

(** *** xor of bytes is a byte *)
Lemma lxor_byte a b : byte_ok a -> byte_ok b -> byte_ok (N.lxor a b).
Proof.
  unfold byte_ok. intros Ha Hb. change 256%N with (2 ^ 8)%N in *.
  destruct (N.eq_dec (N.lxor a b) 0) as [->|Hz]; [reflexivity|].
  apply N.log2_lt_pow2; [lia|].
  eapply N.le_lt_trans; [apply N.log2_lxor|].
  assert (P : forall x, (x < 2 ^ 8)%N -> (N.log2 x < 8)%N).
  { intros x Hx. destruct (N.eq_dec x 0) as [->|]; [reflexivity|]. apply N.log2_lt_pow2; lia. }
  apply N.max_lub_lt; auto.
Qed.

Lemma xor_all_byte l : Forall byte_ok l -> byte_ok (xor_all l).
Proof. induction 1; cbn; [reflexivity | now apply lxor_byte]. Qed.

Lemma groups_bytes g n l : Forall byte_ok l -> Forall (Forall byte_ok) (groups g n l).
Proof.
  revert l. induction n; intros l H; cbn; constructor.
  - now apply forall_firstn_skipn.
  - apply IHn. now apply forall_firstn_skipn.
Qed.

Lemma compact_bytes n l : Forall byte_ok l -> Forall byte_ok (compact n l).
Proof.
  intros H. unfold compact. apply Forall_map.
  eapply Forall_impl; [|apply groups_bytes, H]. intros; now apply xor_all_byte.
Qed.

(** *** the numeric views decide equality of the compacted bytes *)
Definition numeric (n : nat) : Key8 -> N :=
  match n with 1 => one | 2 => two | 4 => four | _ => eight end.

Lemma u16_from_inj a b a' b' : byte_ok a -> byte_ok b -> byte_ok a' -> byte_ok b' ->
  u16_from_le a b = u16_from_le a' b' -> a = a' /\ b = b'.
Proof. unfold byte_ok, u16_from_le. lia. Qed.
Lemma u32_from_inj a b c d a' b' c' d' :
  byte_ok a -> byte_ok b -> byte_ok c -> byte_ok d ->
  byte_ok a' -> byte_ok b' -> byte_ok c' -> byte_ok d' ->
  u32_from_le a b c d = u32_from_le a' b' c' d' -> a = a' /\ b = b' /\ c = c' /\ d = d'.
Proof. unfold byte_ok, u32_from_le. lia. Qed.
Lemma u32_from_lt a b c d : byte_ok a -> byte_ok b -> byte_ok c -> byte_ok d ->
  (u32_from_le a b c d < 4294967296)%N.
Proof. unfold byte_ok, u32_from_le. lia. Qed.

Ltac inv_forall := repeat match goal with H : Forall _ (_ :: _) |- _ => inversion H; clear H; subst end.

Lemma one_iff x y : one x = one y <-> compact 1 (k8_bytes x) = compact 1 (k8_bytes y).
Proof.
  rewrite <- !from8_1. unfold one.
  destruct (key1_from_key8 x), (key1_from_key8 y); cbn. split; congruence.
Qed.

Lemma two_iff x y : k8_ok x -> k8_ok y ->
  (two x = two y <-> compact 2 (k8_bytes x) = compact 2 (k8_bytes y)).
Proof.
  intros Hx Hy. apply (compact_bytes 2) in Hx, Hy. revert Hx Hy.
  rewrite <- !from8_2. unfold two.
  destruct (key2_from_key8 x), (key2_from_key8 y); cbn. intros. inv_forall. split.
  - intros E. apply u16_from_inj in E; auto. destruct E; congruence.
  - intros [= -> ->]. reflexivity.
Qed.

Lemma four_iff x y : k8_ok x -> k8_ok y ->
  (four x = four y <-> compact 4 (k8_bytes x) = compact 4 (k8_bytes y)).
Proof.
  intros Hx Hy. apply (compact_bytes 4) in Hx, Hy. revert Hx Hy.
  rewrite <- !from8_4. unfold four.
  destruct (key4_from_key8 x), (key4_from_key8 y); cbn. intros. inv_forall. split.
  - intros E. apply u32_from_inj in E; auto. destruct E as (?&?&?&?); congruence.
  - intros [= -> -> -> ->]. reflexivity.
Qed.

Lemma eight_inj x y : k8_ok x -> k8_ok y -> eight x = eight y -> x = y.
Proof.
  destruct x, y; unfold k8_ok; cbn. intros. inv_forall.
  unfold u64_from_le in *.
  match goal with E : (u32_from_le ?a ?b ?c ?d + _ * _ = u32_from_le ?a' ?b' ?c' ?d' + _ * _)%N |- _ =>
    pose proof (u32_from_lt a b c d); pose proof (u32_from_lt a' b' c' d') end.
  assert (u32_from_le a b c d = u32_from_le a0 b0 c0 d0) as E1 by (repeat match goal with H : _ -> _ |- _ => specialize (H ltac:(auto)) end; lia).
  assert (u32_from_le e f g h = u32_from_le e0 f0 g0 h0) as E2 by (repeat match goal with H : _ -> _ |- _ => specialize (H ltac:(auto)) end; lia).
  apply u32_from_inj in E1; auto. apply u32_from_inj in E2; auto.
  destruct E1 as (?&?&?&?), E2 as (?&?&?&?). subst. reflexivity.
Qed.

Lemma eight_iff x y : k8_ok x -> k8_ok y ->
  (eight x = eight y <-> compact 8 (k8_bytes x) = compact 8 (k8_bytes y)).
Proof.
  intros Hx Hy. rewrite !compact_same_8. split.
  - intros E. apply eight_inj in E; auto. congruence.
  - intros E. apply k8_bytes_inj in E. congruence.
Qed.

(** *** the loops *)
Lemma loop_y_spec f akey xlist : forall fuel y, length xlist <= y + fuel ->
  loop_y f akey xlist y fuel = existsb (fun k => akey =? f k)%N (skipn y xlist).
Proof.
  induction fuel; intros y H; cbn [loop_y].
  - rewrite skipn_all2 by lia. reflexivity.
  - destruct (Nat.ltb_spec y (length xlist)) as [L|L].
    + destruct (nth_error xlist y) eqn:E; [|apply nth_error_None in E; lia].
      destruct (nth_error_split _ _ E) as (l1 & l2 & -> & Hl).
      rewrite IHfuel by lia.
      replace (skipn y (l1 ++ k :: l2)) with (k :: l2).
      2: { rewrite skipn_app. subst y. rewrite skipn_all, Nat.sub_diag. reflexivity. }
      replace (skipn (S y) (l1 ++ k :: l2)) with l2.
      2: { rewrite skipn_app. subst y. rewrite skipn_all2 by lia.
           replace (S (length l1) - length l1) with 1 by lia. reflexivity. }
      cbn [existsb]. destruct (akey =? f k)%N; reflexivity.
    + rewrite skipn_all2 by lia. reflexivity.
Qed.

Lemma skipn_cons_nth {A} (l : list A) n x : nth_error l n = Some x -> skipn n l = x :: skipn (S n) l.
Proof.
  revert n. induction l; destruct n; cbn; intros H; try discriminate.
  - now injection H as ->.
  - now apply IHl.
Qed.

(** From list [x] on, excluding the first [j+1] of list [i]. *)
Lemma loop_x_after f lists akey i j : forall fuel x, i < x -> length lists <= x + fuel ->
  loop_x f lists akey i j x fuel = existsb (fun k => akey =? f k)%N (concat (skipn x lists)).
Proof.
  induction fuel; intros x Hi H; cbn [loop_x].
  - rewrite skipn_all2 by lia. reflexivity.
  - destruct (Nat.ltb_spec x (length lists)) as [L|L].
    + destruct (nth_error lists x) eqn:E; [|apply nth_error_None in E; lia].
      rewrite (skipn_cons_nth _ _ _ E). cbn [concat]. rewrite existsb_app.
      destruct (Nat.eqb_spec x i); [lia|].
      rewrite loop_y_spec by lia. cbn [skipn].
      rewrite IHfuel by lia.
      destruct (existsb _ l); reflexivity.
    + rewrite skipn_all2 by lia. reflexivity.
Qed.

Lemma loop_x_spec f lists akey i j ilist : nth_error lists i = Some ilist ->
  loop_x f lists akey i j i (length lists) =
  existsb (fun k => akey =? f k)%N (skipn (S j) ilist ++ concat (skipn (S i) lists)).
Proof.
  intros E. assert (L : i < length lists) by (apply nth_error_Some; congruence).
  destruct (length lists) as [|n] eqn:EL; [lia|]. cbn [loop_x]. rewrite EL.
  destruct (Nat.ltb_spec i (S n)) as [L'|L']; [|lia].
  rewrite E, Nat.eqb_refl, Nat.add_1_r, existsb_app, loop_y_spec by lia.
  rewrite loop_x_after by lia.
  destruct (existsb _ (skipn (S j) ilist)); reflexivity.
Qed.

(** Whether some element equals (under [f]) a later one. *)
Fixpoint has_dup (f : Key8 -> N) (l : list Key8) : bool :=
  match l with
  | [] => false
  | k :: tl => existsb (fun k' => f k =? f k')%N tl || has_dup f tl
  end.

Lemma has_dup_app_tail f l1 l2 : has_dup f l2 = true -> has_dup f (l1 ++ l2) = true.
Proof. intros H. induction l1; cbn; auto. rewrite IHl1. apply orb_true_r. Qed.

Lemma loop_j_spec f lists i ilist : nth_error lists i = Some ilist ->
  forall fuel j, length ilist <= j + fuel ->
  loop_j f lists ilist i j fuel || has_dup f (concat (skipn (S i) lists)) =
  has_dup f (skipn j ilist ++ concat (skipn (S i) lists)).
Proof.
  intros E. induction fuel; intros j H; cbn [loop_j].
  - rewrite (skipn_all2 (n:=j) ilist) by lia. reflexivity.
  - destruct (Nat.ltb_spec j (length ilist)) as [L|L].
    + destruct (nth_error ilist j) eqn:Ej; [|apply nth_error_None in Ej; lia].
      rewrite (loop_x_spec _ _ _ _ _ ilist) by auto.
      rewrite (skipn_cons_nth _ _ _ Ej). cbn [app has_dup].
      destruct (existsb (fun k0 => f k =? f k0)%N _); cbn [orb]; [reflexivity|].
      apply IHfuel. lia.
    + rewrite (skipn_all2 (n:=j) ilist) by lia. reflexivity.
Qed.

Lemma loop_i_spec f lists : forall fuel i, length lists <= i + fuel ->
  loop_i f lists i fuel = has_dup f (concat (skipn i lists)).
Proof.
  induction fuel; intros i H; cbn [loop_i].
  - rewrite skipn_all2 by lia. reflexivity.
  - destruct (Nat.ltb_spec i (length lists)) as [L|L].
    + destruct (nth_error lists i) eqn:E; [|apply nth_error_None in E; lia].
      rewrite (skipn_cons_nth _ _ _ E). cbn [concat].
      pose proof (loop_j_spec f lists i l E (length l) 0 ltac:(lia)) as J. change (skipn 0 l) with l in J.
      rewrite <- J. rewrite IHfuel by lia.
      destruct (loop_j f lists l i 0 (length l)); reflexivity.
    + rewrite skipn_all2 by lia. reflexivity.
Qed.

Lemma has_dup_nodup f l : has_dup f l = false <-> NoDup (map f l).
Proof.
  induction l; cbn.
  - split; [constructor|auto].
  - rewrite orb_false_iff, IHl. split.
    + intros [H1 H2]. constructor; auto. intros Hin. apply in_map_iff in Hin.
      destruct Hin as (k & Ek & Hk).
      assert (existsb (fun k' => (f a =? f k')%N) l = true).
      { apply existsb_exists. exists k. split; auto. apply N.eqb_eq. auto. }
      congruence.
    + intros H. inversion H; subst. split; auto.
      apply not_true_is_false. rewrite existsb_exists. intros (k & Hk & Ek).
      apply N.eqb_eq in Ek. apply H2. apply in_map_iff. eauto.
Qed.

Lemma good_spec f lists : good f lists = true <-> NoDup (map f (concat lists)).
Proof.
  unfold good. rewrite negb_true_iff, loop_i_spec by lia. cbn [skipn]. apply has_dup_nodup.
Qed.

(** *** distinctness at a length *)
Lemma nodup_map_iff {A B C} (f : A -> B) (g : A -> C) (l : list A) :
  (forall x y, In x l -> In y l -> (f x = f y <-> g x = g y)) ->
  NoDup (map f l) <-> NoDup (map g l).
Proof.
  induction l; cbn; intros H; [split; constructor|].
  assert (IH := IHl ltac:(intros; apply H; auto)).
  split; intros N; inversion N; subst; constructor; try (apply IH; auto).
  - intros Hin. apply in_map_iff in Hin. destruct Hin as (x & E & Hx).
    apply H2. apply in_map_iff. exists x. split; auto. apply H; auto.
  - intros Hin. apply in_map_iff in Hin. destruct Hin as (x & E & Hx).
    apply H2. apply in_map_iff. exists x. split; auto. apply H; auto.
Qed.

Lemma good_distinct n lists : n = 1 \/ n = 2 \/ n = 4 \/ n = 8 -> keys_ok (concat lists) ->
  (good (numeric n) lists = true <-> distinct_at n (concat lists)).
Proof.
  intros Hn Hok. rewrite good_spec. unfold distinct_at. apply nodup_map_iff.
  unfold keys_ok in Hok. rewrite Forall_forall in Hok.
  intros x y Hx Hy. apply Hok in Hx, Hy.
  destruct Hn as [->|[->|[->| ->]]]; cbn [numeric].
  - apply one_iff. - now apply two_iff. - now apply four_iff. - now apply eight_iff.
Qed.

Lemma nodup_map_compose {A B C} (f : A -> B) (g : A -> C) (h : C -> B) l :
  (forall x, f x = h (g x)) -> NoDup (map f l) -> NoDup (map g l).
Proof.
  intros E. induction l; cbn; intros N; inversion N; subst; constructor; auto.
  intros Hin. apply in_map_iff in Hin. destruct Hin as (x & Ex & Hx).
  apply H1. apply in_map_iff. exists x. split; auto. rewrite !E, Ex. reflexivity.
Qed.

Lemma distinct_mono ka kb keys :
  klen ka <= klen kb -> distinct_at (klen ka) keys -> distinct_at (klen kb) keys.
Proof.
  intros L. apply nodup_map_compose with (h := compact (klen ka)).
  intros x. symmetry. apply (compact_compact (VKey8 x)); auto.
  unfold vlen. destruct x, kb; cbn; lia.
Qed.

Lemma permitted_klen n : permitted n -> exists k, n = klen k.
Proof. intros [->|[->|[->| ->]]]; [exists KK1|exists KK2|exists KK4|exists KK8]; reflexivity. Qed.

Lemma min_key_spec lists : keys_ok (concat lists) ->
  match min_key_needed lists with
  | Some n => permitted n /\ distinct_at n (concat lists)
              /\ (forall m, permitted m -> m < n -> ~ distinct_at m (concat lists))
              /\ (forall m, permitted m -> n <= m -> distinct_at m (concat lists))
  | None => ~ NoDup (concat lists)
  end.
Proof.
  intros Hok. unfold min_key_needed, permitted.
  pose proof (good_distinct 1 lists ltac:(auto) Hok) as G1. cbn [numeric] in G1.
  pose proof (good_distinct 2 lists ltac:(auto) Hok) as G2. cbn [numeric] in G2.
  pose proof (good_distinct 4 lists ltac:(auto) Hok) as G4. cbn [numeric] in G4.
  pose proof (good_distinct 8 lists ltac:(auto) Hok) as G8. cbn [numeric] in G8.
  assert (M : forall a b, permitted a -> permitted b -> a <= b -> distinct_at a (concat lists) -> distinct_at b (concat lists)).
  { intros a b Ha Hb L. destruct (permitted_klen a Ha) as [ka ->], (permitted_klen b Hb) as [kb ->].
    now apply distinct_mono. }
  unfold permitted in M.
  destruct (good one lists) eqn:E1.
  { apply proj1 in G1. specialize (G1 eq_refl). repeat split; auto; try lia.
    intros m Hm L. apply (M 1 m); auto. }
  destruct (good two lists) eqn:E2.
  { apply proj1 in G2. specialize (G2 eq_refl). repeat split; auto.
    - intros m Hm L D. assert (m = 1) as -> by lia. apply G1 in D. discriminate.
    - intros m Hm L. apply (M 2 m); auto. }
  destruct (good four lists) eqn:E4.
  { apply proj1 in G4. specialize (G4 eq_refl). repeat split; auto.
    - intros m Hm L D. assert (m = 1 \/ m = 2) as [->| ->] by lia;
        [apply G1 in D | apply G2 in D]; discriminate.
    - intros m Hm L. apply (M 4 m); auto. }
  destruct (good eight lists) eqn:E8.
  { apply proj1 in G8. specialize (G8 eq_refl). repeat split; auto.
    - intros m Hm L D. assert (m = 1 \/ m = 2 \/ m = 4) as [->|[->| ->]] by lia;
        [apply G1 in D | apply G2 in D | apply G4 in D]; discriminate.
    - intros m Hm L. apply (M 8 m); auto. }
  intros N. assert (D : distinct_at 8 (concat lists)).
  { unfold distinct_at. apply Injective_map_NoDup; auto.
    intros x y. rewrite !compact_same_8. apply k8_bytes_inj. }
  apply G8 in D. discriminate.
Qed.

Lemma distinct_nodup n keys : distinct_at n keys -> NoDup keys.
Proof.
  unfold distinct_at. apply NoDup_map_inv.
Qed.

(** *** subset check *)
Lemma loop_matched_spec x b : k8_ok x -> keys_ok b -> (loop_matched (eight x) b = true <-> In x b).
Proof.
  intros Hx Hb. induction Hb as [|y b Hy Hb IH]; cbn; [split; [discriminate|tauto]|].
  destruct (N.eqb_spec (eight x) (eight y)) as [E|E].
  - split; auto. intros _. left. symmetry. now apply eight_inj.
  - rewrite IH. split; auto. intros [->|]; auto. congruence.
Qed.

Lemma subset_spec a b : keys_ok a -> keys_ok b -> (a_is_subset_of_b a b = true <-> incl a b).
Proof.
  intros Ha Hb. induction Ha as [|x a Hx Ha IH]; cbn.
  - split; auto. intros _ z [].
  - pose proof (loop_matched_spec x b Hx Hb) as E.
    destruct (loop_matched (eight x) b).
    + rewrite IH. split; intros H.
      * intros z [<-|Hz]; [now apply E | now apply H].
      * intros z Hz. apply H. now right.
    + split; [discriminate|]. intros H. apply E. apply H. now left.
Qed.

Lemma needed_sz_spec eps ti tout hin hout htp n :
  keys_ok (map ep_req eps) -> keys_ok (map ep_resp eps) ->
  keys_ok (map snd ti) -> keys_ok (map snd tout) ->
  keys_ok hin -> keys_ok hout -> keys_ok htp ->
  needed_sz eps ti tout hin hout htp = Some n ->
  permitted n /\
  (forall m, permitted m -> n <= m ->
     distinct_at m (map ep_req eps ++ map snd ti) /\
     distinct_at m (map ep_resp eps ++ map snd tout)) /\
  incl hin (map ep_req eps) /\ incl hout (map ep_resp eps) /\ incl htp (map snd ti).
Proof.
  intros K1 K2 K3 K4 K5 K6 K7. unfold needed_sz, needed_sz_in, needed_sz_out.
  pose proof (min_key_spec [map ep_req eps; map snd ti]) as S1.
  pose proof (min_key_spec [map ep_resp eps; map snd tout]) as S2.
  cbn [concat] in S1, S2. rewrite app_nil_r in S1, S2.
  specialize (S1 ltac:(apply Forall_app; auto)). specialize (S2 ltac:(apply Forall_app; auto)).
  destruct (min_key_needed [map ep_req eps; _]) as [si|]; [|discriminate].
  destruct (min_key_needed [map ep_resp eps; _]) as [so|]; [|discriminate].
  pose proof (subset_spec hin (map ep_req eps) K5 K1) as U1.
  pose proof (subset_spec hout (map ep_resp eps) K6 K2) as U2.
  pose proof (subset_spec htp (map snd ti) K7 K3) as U3.
  destruct (a_is_subset_of_b hin _); [|discriminate].
  destruct (a_is_subset_of_b hout _); [|discriminate].
  destruct (a_is_subset_of_b htp _); [|discriminate].
  cbn [negb]. intros [= <-].
  destruct S1 as (P1 & _ & _ & M1), S2 as (P2 & _ & _ & M2).
  destruct (Nat.ltb_spec so si); repeat split; try tauto; auto;
    try (apply U1; reflexivity); try (apply U2; reflexivity); try (apply U3; reflexivity);
    try (apply M1; auto; lia); try (apply M2; auto; lia).
Qed.

Lemma needed_sz_minimal eps ti tout hin hout htp n :
  keys_ok (map ep_req eps) -> keys_ok (map ep_resp eps) ->
  keys_ok (map snd ti) -> keys_ok (map snd tout) ->
  needed_sz eps ti tout hin hout htp = Some n ->
  forall m, permitted m -> m < n ->
     ~ (distinct_at m (map ep_req eps ++ map snd ti) /\
        distinct_at m (map ep_resp eps ++ map snd tout)).
Proof.
  intros K1 K2 K3 K4. unfold needed_sz, needed_sz_in, needed_sz_out.
  pose proof (min_key_spec [map ep_req eps; map snd ti]) as S1.
  pose proof (min_key_spec [map ep_resp eps; map snd tout]) as S2.
  cbn [concat] in S1, S2. rewrite app_nil_r in S1, S2.
  specialize (S1 ltac:(apply Forall_app; auto)). specialize (S2 ltac:(apply Forall_app; auto)).
  destruct (min_key_needed [map ep_req eps; _]) as [si|]; [|discriminate].
  destruct (min_key_needed [map ep_resp eps; _]) as [so|]; [|discriminate].
  destruct (a_is_subset_of_b hin _); [|discriminate].
  destruct (a_is_subset_of_b hout _); [|discriminate].
  destruct (a_is_subset_of_b htp _); [|discriminate].
  cbn [negb]. intros [= <-] m Hm L [D1 D2].
  destruct S1 as (_ & _ & M1 & _), S2 as (_ & _ & M2 & _).
  destruct (Nat.ltb_spec so si); [now apply (M1 m)|now apply (M2 m)].
Qed.
