(** Lemmas about the wire format. *)
From Coq Require Import NArith ZArith List Bool Arith Lia ZifyBool ZifyNat ZifyN.
From Verif Require Import KeyModel HeaderModel SchemaModel SchemaProof PostcardModel PostcardProof CodecModel CodecSpec.
Import ListNotations.
Local Open Scope N_scope.

(** *** Integers *)
Lemma take_put_varint w n r : uint_ok w n -> take_varint w (put_varint w n ++ r) = Some (n, r).
Proof.
  intros H. unfold take_varint, put_varint. destruct w; cbn [varint_max varint_last]; (rewrite varint_dec_enc; [f_equal; f_equal; lia|lia|]);
    (eapply N.lt_le_trans; [exact H|]); vm_compute; discriminate.
Qed.

Lemma zigzag_ok w z : sint_ok w z -> uint_ok w (zigzag z).
Proof.
  unfold sint_ok, uint_ok, zigzag. assert (E : (2 ^ bits w = 2 * 2 ^ (bits w - 1))%N) by (destruct w; reflexivity). rewrite E.
  assert (E2 : Z.of_N (2 ^ (bits w - 1)) = (2 ^ Z.of_N (bits w - 1))%Z) by (destruct w; reflexivity). rewrite <- E2.
  destruct (Z.ltb_spec z 0); lia.
Qed.
Lemma de_zigzag_zigzag z : de_zigzag (zigzag z) = z.
Proof.
  unfold zigzag, de_zigzag. destruct (Z.ltb_spec z 0).
  - replace (Z.to_N (-2 * z - 1)) with (2 * Z.to_N (- z - 1) + 1) by lia.
    rewrite N.odd_add, N.odd_mul. change (N.odd 2) with false. change (N.odd 1) with true. cbn [xorb andb].
    replace ((2 * Z.to_N (- z - 1) + 1) / 2) with (Z.to_N (- z - 1)); [lia|]. apply (N.div_unique _ _ _ 1); lia.
  - replace (Z.to_N (2 * z)) with (2 * Z.to_N z) by lia. rewrite N.odd_mul. change (N.odd 2) with false. cbn [andb].
    replace (2 * Z.to_N z / 2) with (Z.to_N z); [lia|]. apply (N.div_unique _ _ _ 0); lia.
Qed.
Lemma de_zigzag_ok w n : uint_ok w n -> sint_ok w (de_zigzag n).
Proof.
  unfold sint_ok, uint_ok, de_zigzag. assert (E : (2 ^ bits w = 2 * 2 ^ (bits w - 1))%N) by (destruct w; reflexivity). rewrite E.
  assert (E2 : Z.of_N (2 ^ (bits w - 1)) = (2 ^ Z.of_N (bits w - 1))%Z) by (destruct w; reflexivity). rewrite <- E2.
  intros H. assert (n / 2 < 2 ^ (bits w - 1)) by (apply N.div_lt_upper_bound; lia). destruct (N.odd n); lia.
Qed.

Lemma le_bytes_len k n : length (le_bytes k n) = k.
Proof. revert n. induction k; intros; cbn; auto. Qed.
Lemma of_le_bytes k : forall n, n < 256 ^ N.of_nat k -> of_le (le_bytes k n) = n.
Proof.
  induction k; intros n H.
  - cbn in *. lia.
  - cbn [le_bytes of_le]. rewrite IHk. { symmetry. rewrite N.add_comm. apply N.div_mod. discriminate. }
    apply N.div_lt_upper_bound; [discriminate|]. rewrite Nat2N.inj_succ, N.pow_succ_r' in H. lia.
Qed.
Lemma of_le_lt l : Forall byte_ok l -> of_le l < 256 ^ N.of_nat (length l).
Proof.
  induction 1 as [|b l Hb Hl IH]; [cbn; lia|]. cbn [of_le length]. rewrite Nat2N.inj_succ, N.pow_succ_r'. unfold byte_ok in Hb. lia.
Qed.
Lemma take_n_app k a b : length a = k -> take_n k (a ++ b) = Some (a, b).
Proof.
  intros <-. unfold take_n. rewrite app_length. destruct (Nat.ltb_spec (length a + length b) (length a)); [lia|].
  rewrite firstn_app, Nat.sub_diag, firstn_all, skipn_app, Nat.sub_diag, skipn_all, app_nil_r. reflexivity.
Qed.
Lemma take_bytes_put s r : len_ok s -> take_bytes (put_len (length s) ++ s ++ r) = Some (s, r).
Proof.
  intros H. unfold take_bytes, put_len. rewrite take_put_varint by exact H.
  rewrite app_length. destruct (N.ltb_spec (N.of_nat (length s + length r)) (N.of_nat (length s))); [lia|].
  rewrite Nat2N.id. apply take_n_app. reflexivity.
Qed.

(** *** UTF-8 *)
Lemma scalar_iff c : scalar c = true <-> c < 55296 \/ (57344 <= c < 1114112).
Proof. unfold scalar. lia. Qed.
Lemma utf8_char_len c : (1 <= length (utf8_char c) <= 4)%nat.
Proof. unfold utf8_char. repeat destruct (_ <? _); cbn; lia. Qed.

Ltac dm := repeat match goal with
  | |- context [?a / ?b] => let q := fresh "q" in let r := fresh "r" in let H1 := fresh in let H2 := fresh in
      pose proof (N.div_mod a b ltac:(discriminate)) as H1; pose proof (N.mod_lt a b ltac:(discriminate)) as H2;
      set (q := a / b) in *; set (r := a mod b) in *; clearbody q r
  | |- context [?a mod ?b] => let q := fresh "q" in let r := fresh "r" in let H1 := fresh in let H2 := fresh in
      pose proof (N.div_mod a b ltac:(discriminate)) as H1; pose proof (N.mod_lt a b ltac:(discriminate)) as H2;
      set (q := a / b) in *; set (r := a mod b) in *; clearbody q r
  end.

Ltac branch := match goal with |- (if ?b then _ else _) = _ =>
  let E := fresh in first [assert (E : b = true) by lia | assert (E : b = false) by lia]; rewrite E; clear E end.

Lemma utf8_next_char c x : scalar c = true -> utf8_next (utf8_char c ++ x) = Some (c, x).
Proof.
  intros H. apply scalar_iff in H. unfold utf8_char.
  destruct (N.ltb_spec c 128); [|destruct (N.ltb_spec c 2048); [|destruct (N.ltb_spec c 65536)]]; cbn [app].
  - unfold utf8_next. replace (c <? 128) with true by lia. reflexivity.
  - dm. unfold utf8_next, within, cont, within. repeat branch. f_equal. f_equal. lia.
  - replace (c / 4096) with (c / 64 / 64) by (rewrite N.div_div by discriminate; reflexivity).
    dm. unfold utf8_next, within, cont, within. repeat branch. f_equal. f_equal. lia.
  - replace (c / 262144) with (c / 64 / 64 / 64) by (rewrite !N.div_div by discriminate; reflexivity).
    replace (c / 4096) with (c / 64 / 64) by (rewrite N.div_div by discriminate; reflexivity).
    dm. unfold utf8_next, within, cont, within. repeat branch. f_equal. f_equal. lia.
Qed.
Lemma utf8_ok_char c : scalar c = true -> utf8_ok (utf8_char c) = true.
Proof.
  intros H. unfold utf8_ok. pose proof (utf8_char_len c). pose proof (utf8_next_char c [] H) as E. rewrite app_nil_r in E.
  destruct (utf8_char c) as [|b l] eqn:Eu; [discriminate|]. cbn [length utf8_valid]. rewrite E. destruct (length l); reflexivity.
Qed.
(** The reader accepts UTF-8 text and nothing else. *)
Lemma utf8_char_of c : is_scalar c -> utf8_of c (utf8_char c).
Proof.
  intros H. unfold utf8_char. destruct (N.ltb_spec c 128); [constructor; auto|]. destruct (N.ltb_spec c 2048); [|destruct (N.ltb_spec c 65536)].
  - dm. constructor; lia.
  - replace (c / 4096) with (c / 64 / 64) by (rewrite N.div_div by discriminate; reflexivity). dm. constructor; lia.
  - replace (c / 262144) with (c / 64 / 64 / 64) by (rewrite !N.div_div by discriminate; reflexivity).
    replace (c / 4096) with (c / 64 / 64) by (rewrite N.div_div by discriminate; reflexivity). dm. constructor; lia.
Qed.
Lemma utf8_of_unique c b : utf8_of c b -> b = utf8_char c.
Proof.
  intros [c' H|c' x y H Hy E|c' x y z H Hy Hz E|c' x y z w H Hy Hz Hw E]; unfold utf8_char.
  - replace (c' <? 128) with true by lia. reflexivity.
  - replace (c' <? 128) with false by lia. replace (c' <? 2048) with true by lia. dm. repeat f_equal; lia.
  - replace (c' <? 128) with false by lia. replace (c' <? 2048) with false by lia. replace (c' <? 65536) with true by lia.
    replace (c' / 4096) with (c' / 64 / 64) by (rewrite N.div_div by discriminate; reflexivity). dm. repeat f_equal; lia.
  - replace (c' <? 128) with false by lia. replace (c' <? 2048) with false by lia. replace (c' <? 65536) with false by lia.
    replace (c' / 262144) with (c' / 64 / 64 / 64) by (rewrite !N.div_div by discriminate; reflexivity).
    replace (c' / 4096) with (c' / 64 / 64) by (rewrite N.div_div by discriminate; reflexivity). dm. repeat f_equal; lia.
Qed.
Lemma utf8_next_of l c r : utf8_next l = Some (c, r) -> exists b, l = b ++ r /\ utf8_of c b.
Proof.
  intros H. unfold utf8_next, within, cont, within in H. destruct l as [|a l]; [discriminate|].
  destruct (a <? 128) eqn:E0. { injection H as <- <-. exists [a]. split; auto. constructor. lia. }
  destruct l as [|b l]; [discriminate|]. match type of H with (if ?e then _ else _) = _ => destruct e eqn:E1 end.
  { injection H as <- <-. exists [192 + (a - 192); 128 + (b - 128)]. split; [cbn [app]; repeat f_equal; lia|constructor; lia]. }
  destruct l as [|d l]; [discriminate|]. match type of H with (if ?e then _ else _) = _ => destruct e eqn:E2 end.
  { injection H as <- <-. exists [224 + (a - 224); 128 + (b - 128); 128 + (d - 128)]. split; [cbn [app]; repeat f_equal; lia|constructor; lia]. }
  destruct l as [|f l]; [discriminate|]. match type of H with (if ?e then _ else _) = _ => destruct e eqn:E3 end; [|discriminate].
  injection H as <- <-. exists [240 + (a - 240); 128 + (b - 128); 128 + (d - 128); 128 + (f - 128)]. split; [cbn [app]; repeat f_equal; lia|constructor; lia].
Qed.
(** What the reader returns is a character. *)
Lemma utf8_next_scalar l c r : utf8_next l = Some (c, r) -> scalar c = true.
Proof.
  intros H. apply scalar_iff. unfold utf8_next, within, cont, within in H. destruct l as [|a l]; [discriminate|].
  destruct (a <? 128) eqn:E0. { injection H as <- _. lia. }
  destruct l as [|b l]; [discriminate|]. match type of H with (if ?e then _ else _) = _ => destruct e eqn:E1 end. { injection H as <- _. lia. }
  destruct l as [|d l]; [discriminate|]. match type of H with (if ?e then _ else _) = _ => destruct e eqn:E2 end. { injection H as <- _. lia. }
  destruct l as [|f l]; [discriminate|]. match type of H with (if ?e then _ else _) = _ => destruct e eqn:E3 end; [|discriminate].
  injection H as <- _. lia.
Qed.

Lemma utf8_ok_text l : utf8_ok l = true <-> is_text l.
Proof.
  unfold utf8_ok. split.
  - generalize (length l) as fuel. intros fuel. revert l. induction fuel as [|fuel IH]; intros [|a l]; cbn [utf8_valid]; intros H; try discriminate; try constructor.
    destruct (utf8_next (a :: l)) as [[c r]|] eqn:E; [|discriminate]. destruct (utf8_next_of _ _ _ E) as (b & -> & Hb).
    econstructor; [apply scalar_iff; eapply utf8_next_scalar; exact E|exact Hb|apply IH; exact H].
  - intros H. assert (G : forall fuel, (length l <= fuel)%nat -> utf8_valid fuel l = true); [|apply G; lia].
    induction H as [|c b s Hc Hb Hs IH]; intros fuel Hf; [destruct fuel; reflexivity|].
    apply utf8_of_unique in Hb. subst b. pose proof (utf8_char_len c). rewrite app_length in Hf. apply scalar_iff in Hc.
    pose proof (utf8_next_char c s Hc) as E. destruct fuel as [|fuel]; [lia|]. destruct (utf8_char c ++ s) as [|a l] eqn:El; [discriminate|].
    cbn [utf8_valid]. rewrite E. apply IH. lia.
Qed.

(** *** What is written is read back *)
Lemma de_prim_ser p v r : typed_prim p v -> de_prim p (ser v ++ r) = Some (v, r).
Proof.
  intros H. destruct p, v; try (contradiction H); try (destruct w; try (contradiction H)); cbn [typed_prim] in *; cbn [ser de_prim];
    try (rewrite take_put_varint; [cbn [omap]; rewrite ?de_zigzag_zigzag; reflexivity|auto using zigzag_ok]); try reflexivity.
  - destruct b; reflexivity.
  - cbn [app]. f_equal. f_equal. f_equal. destruct (Z.ltb_spec z 0).
    + rewrite <- (Z.mod_add z 1 256), Z.mod_small by lia. destruct (N.ltb_spec (Z.to_N (z + 1 * 256)) 128); lia.
    + rewrite Z.mod_small by lia. destruct (N.ltb_spec (Z.to_N z) 128); lia.
  - rewrite take_n_app by apply le_bytes_len. cbn [omap]. rewrite of_le_bytes; [reflexivity|exact H].
  - rewrite take_n_app by apply le_bytes_len. cbn [omap]. rewrite of_le_bytes; [reflexivity|exact H].
  - apply scalar_iff in H. pose proof (utf8_char_len c). rewrite <- app_assoc, take_bytes_put by (unfold len_ok; lia).
    destruct (Nat.ltb_spec 4 (length (utf8_char c))); [lia|]. rewrite utf8_ok_char by auto.
    pose proof (utf8_next_char c [] H) as E. rewrite app_nil_r in E. rewrite E. reflexivity.
  - destruct H as [H1 H2]. apply utf8_ok_text in H1. rewrite <- app_assoc, take_bytes_put by auto. rewrite H1. reflexivity.
  - destruct H as [H1 H2]. rewrite <- app_assoc, take_bytes_put by auto. reflexivity.
Qed.

Lemma de_all_ser {A} (T : A -> value -> Prop) (f : A -> list N -> option (value * list N)) ts :
  Forall (fun t => forall v r, T t v -> f t (ser v ++ r) = Some (v, r)) ts ->
  forall vs r, all2 T ts vs -> de_all f ts (flat_map ser vs ++ r) = Some (vs, r).
Proof.
  induction 1 as [|t ts Ht Hts IH]; intros [|v vs] r Ha; cbn in Ha; try contradiction; [reflexivity|].
  destruct Ha as [H1 H2]. cbn [flat_map de_all]. rewrite <- app_assoc, (Ht _ _ H1), (IH _ _ H2). reflexivity.
Qed.
Lemma de_nth_ser {A} (T : A -> value -> Prop) (f : A -> list N -> option (value * list N)) ts :
  Forall (fun t => forall v r, T t v -> f t (ser v ++ r) = Some (v, r)) ts ->
  forall i v r, at_nth T ts i v -> (i < length ts)%nat /\ de_nth f ts i (ser v ++ r) = Some (v, r).
Proof.
  induction 1 as [|t ts Ht Hts IH]; intros i v r Ha; cbn in Ha; try contradiction.
  destruct i; cbn [de_nth length]; [split; [lia|auto]|]. destruct (IH _ _ r Ha). split; [lia|auto].
Qed.
Lemma de_times_ser {B} (g : B -> list N) (f : list N -> option (B * list N)) vs :
  Forall (fun v => forall r, f (g v ++ r) = Some (v, r)) vs ->
  forall r, de_times f (length vs) (flat_map g vs ++ r) = Some (vs, r).
Proof.
  induction 1 as [|v vs Hv Hvs IH]; intros r; [reflexivity|]. cbn [flat_map de_times length]. rewrite <- app_assoc, Hv, IH. reflexivity.
Qed.

Lemma de_ser_all :
  (forall t v r, typed t v -> de t (ser v ++ r) = Some (v, r)) /\
  (forall d v r, typed_dmt d v -> de_dmt d (ser v ++ r) = Some (v, r)) /\
  (forall m v r, typed_dmv m v -> de_dmv m (ser v ++ r) = Some (v, r)).
Proof.
  apply schema_ind; intros; cbn [typed typed_dmt typed_dmv de de_dmt de_dmv] in *; auto.
  - apply de_prim_ser. auto.
  - subst. reflexivity.
  - destruct v; try contradiction; cbn [ser app]; [reflexivity|]. cbn [N.eqb]. rewrite H by auto. reflexivity.
  - destruct v; try contradiction. destruct H0 as [H0 L]. cbn [ser]. rewrite <- app_assoc. unfold put_len. rewrite take_put_varint by exact L.
    rewrite Nat2N.id, de_times_ser; [reflexivity|]. eapply Forall_impl; [|exact H0]. auto.
  - destruct v; try contradiction. cbn [ser]. rewrite (de_all_ser typed de _ H _ _ H0). reflexivity.
  - destruct v; try contradiction. cbn [ser]. rewrite (de_all_ser typed de _ H _ _ H0). reflexivity.
  - destruct v0; try contradiction. destruct H1 as [H1 L]. cbn [ser]. rewrite <- app_assoc. unfold put_len. rewrite take_put_varint by exact L.
    rewrite Nat2N.id, de_times_ser; [reflexivity|]. eapply Forall_impl; [|exact H1]. intros [a b] [Ha Hb] r0. cbn [fst snd] in *.
    unfold de_pair. rewrite <- app_assoc, H, H0 by auto. reflexivity.
  - destruct v; try contradiction. cbn [ser]. erewrite de_all_ser; [reflexivity| |exact H0]. eapply Forall_impl; [|exact H]. intros [? ?]; auto.
  - destruct v; try contradiction. destruct H0 as [Hi Ha]. cbn [ser]. rewrite <- app_assoc, take_put_varint by auto.
    destruct (de_nth_ser (fun x : str * DMV => let (_, m) := x in typed_dmv m) (fun x : str * DMV => let (_, m) := x in de_dmv m) l
      ltac:(eapply Forall_impl; [|exact H]; intros [? ?]; auto) _ _ r Ha) as [L E].
    destruct (N.leb_spec (N.of_nat (length l)) i); [lia|]. rewrite E. reflexivity.
  - subst. reflexivity.
  - destruct v; try contradiction. cbn [ser]. rewrite (de_all_ser typed de _ H _ _ H0). reflexivity.
  - destruct v; try contradiction. cbn [ser]. erewrite de_all_ser; [reflexivity| |exact H0]. eapply Forall_impl; [|exact H]. intros [? ?]; auto.
Qed.

(** *** Reading is not affected by what follows *)
Lemma varint_dec_app k : forall i last l v r x, varint_dec k i last l = Some (v, r) -> varint_dec k i last (l ++ x) = Some (v, r ++ x).
Proof.
  induction k; intros i last l v r x H; [discriminate|]. destruct l as [|b l]; [discriminate|]. cbn [varint_dec app] in *.
  destruct (b <? 128).
  - destruct k; [destruct (last <? b); [discriminate|]|]; injection H as <- <-; reflexivity.
  - destruct (varint_dec k (i + 1) last l) as [[v1 r1]|] eqn:E; [|discriminate]. injection H as <- <-. rewrite (IHk _ _ _ _ _ x E). reflexivity.
Qed.
Lemma take_varint_app w l v r x : take_varint w l = Some (v, r) -> take_varint w (l ++ x) = Some (v, r ++ x).
Proof. apply varint_dec_app. Qed.
Lemma take_n_ext k l a r x : take_n k l = Some (a, r) -> take_n k (l ++ x) = Some (a, r ++ x).
Proof.
  unfold take_n. destruct (Nat.ltb_spec (length l) k); [discriminate|]. intros [= <- <-]. rewrite app_length.
  destruct (Nat.ltb_spec (length l + length x) k); [lia|]. rewrite firstn_app, skipn_app. replace (k - length l)%nat with O by lia.
  cbn [firstn skipn]. rewrite app_nil_r. reflexivity.
Qed.
Lemma take_bytes_app l a r x : take_bytes l = Some (a, r) -> take_bytes (l ++ x) = Some (a, r ++ x).
Proof.
  unfold take_bytes. destruct (take_varint W64 l) as [[n r1]|] eqn:E; [|discriminate]. rewrite (take_varint_app _ _ _ _ x E).
  destruct (N.ltb_spec (N.of_nat (length r1)) n); [discriminate|]. intros Ht. rewrite app_length.
  destruct (N.ltb_spec (N.of_nat (length r1 + length x)) n); [lia|]. apply take_n_ext. auto.
Qed.
Lemma omap_app {A B} (g : A -> B) o o' v r x : omap g o = Some (v, r) ->
  (forall a r0, o = Some (a, r0) -> o' = Some (a, r0 ++ x)) -> omap g o' = Some (v, r ++ x).
Proof. destruct o as [[a r0]|]; [|discriminate]. intros [= <- <-] H. rewrite (H _ _ eq_refl). reflexivity. Qed.

Definition extends {B} (f : list N -> option (B * list N)) : Prop := forall l v r x, f l = Some (v, r) -> f (l ++ x) = Some (v, r ++ x).
Lemma extends_omap {A B} (g : A -> B) f : extends f -> extends (fun l => omap g (f l)).
Proof. intros H l v r x E. eapply omap_app; eauto. Qed.
Lemma de_prim_ext p : extends (de_prim p).
Proof.
  assert (V : forall w, extends (take_varint w)) by (intros w l v r x; apply take_varint_app).
  destruct p; try (apply extends_omap; auto; try (intros l v r x; apply take_n_ext); intros l v r x; apply take_bytes_app);
    intros l v r x; cbn [de_prim]; try discriminate.
  - destruct l as [|b l]; [discriminate|]. cbn [app]. destruct (b =? 0); [intros [= <- <-]; reflexivity|]. destruct (b =? 1); [|discriminate]. intros [= <- <-]; reflexivity.
  - destruct l as [|b l]; [discriminate|]. cbn [app]. intros [= <- <-]. reflexivity.
  - destruct l as [|b l]; [discriminate|]. cbn [app]. intros [= <- <-]. reflexivity.
  - destruct (take_bytes l) as [[s r1]|] eqn:E; [|discriminate]. rewrite (take_bytes_app _ _ _ x E). destruct (4 <? length s)%nat; [discriminate|].
    destruct (utf8_ok s); [|discriminate]. destruct (utf8_next s) as [[c ?]|]; [|discriminate]. intros [= <- <-]. reflexivity.
  - destruct (take_bytes l) as [[s r1]|] eqn:E; [|discriminate]. rewrite (take_bytes_app _ _ _ x E).
    destruct (utf8_ok s); [|discriminate]. intros [= <- <-]. reflexivity.
  - intros [= <- <-]. reflexivity.
Qed.
Lemma de_all_ext {A B} (f : A -> list N -> option (B * list N)) ts : Forall (fun t => extends (f t)) ts -> extends (de_all f ts).
Proof.
  induction 1 as [|t ts Ht Hts IH]; intros l v r x; cbn [de_all]. { intros [= <- <-]. reflexivity. }
  destruct (f t l) as [[a r1]|] eqn:E; [|discriminate]. rewrite (Ht _ _ _ x E). destruct (de_all f ts r1) as [[vs r2]|] eqn:E2; [|discriminate].
  rewrite (IH _ _ _ x E2). intros [= <- <-]. reflexivity.
Qed.
Lemma de_nth_ext {A B} (f : A -> list N -> option (B * list N)) ts : Forall (fun t => extends (f t)) ts -> forall i, extends (de_nth f ts i).
Proof. induction 1; intros [|i] l' v r y; cbn [de_nth]; try discriminate; auto. apply IHForall. Qed.
Lemma de_times_ext {B} (f : list N -> option (B * list N)) n : extends f -> extends (de_times f n).
Proof.
  intros Hf. induction n as [|n IH]; intros l v r x; cbn [de_times]. { intros [= <- <-]. reflexivity. }
  destruct (f l) as [[a r1]|] eqn:E; [|discriminate]. rewrite (Hf _ _ _ x E). destruct (de_times f n r1) as [[vs r2]|] eqn:E2; [|discriminate].
  rewrite (IH _ _ _ x E2). intros [= <- <-]. reflexivity.
Qed.
Lemma de_pair_ext {A B} (f : list N -> option (A * list N)) (g : list N -> option (B * list N)) : extends f -> extends g -> extends (de_pair f g).
Proof.
  intros Hf Hg l v r x. unfold de_pair. destruct (f l) as [[a r1]|] eqn:E; [|discriminate]. rewrite (Hf _ _ _ x E).
  destruct (g r1) as [[b r2]|] eqn:E2; [|discriminate]. rewrite (Hg _ _ _ x E2). intros [= <- <-]. reflexivity.
Qed.

Lemma de_ext_all : (forall t, extends (de t)) /\ (forall d, extends (de_dmt d)) /\ (forall m, extends (de_dmv m)).
Proof.
  apply schema_ind; intros; try (intros l' v' r' x'); cbn [de de_dmt de_dmv].
  - apply H.
  - apply de_prim_ext.
  - intros [= <- <-]. reflexivity.
  - destruct l' as [|b l']; [discriminate|]. cbn [app]. destruct (b =? 0); [intros [= <- <-]; reflexivity|]. destruct (b =? 1); [|discriminate].
    apply (extends_omap VSome _ H).
  - apply H.
  - destruct (take_varint W64 l') as [[k r1]|] eqn:E; [|discriminate]. rewrite (take_varint_app _ _ _ _ x' E).
    apply (extends_omap VSeq (de_times (de n) (N.to_nat k))), de_times_ext, H.
  - apply (extends_omap VTup (de_all de l)), de_all_ext, H.
  - apply (extends_omap VTup (de_all de l)), de_all_ext, H.
  - destruct (take_varint W64 l') as [[n r1]|] eqn:E; [|discriminate]. rewrite (take_varint_app _ _ _ _ x' E).
    apply (extends_omap VMap (de_times (de_pair (de k) (de v)) (N.to_nat n))), de_times_ext, de_pair_ext; auto.
  - apply (extends_omap VTup (de_all _ l)), de_all_ext. eapply Forall_impl; [|exact H]. intros [? ?]; auto.
  - destruct (take_varint W32 l') as [[n r1]|] eqn:E; [|discriminate]. rewrite (take_varint_app _ _ _ _ x' E).
    destruct (_ <=? n); [discriminate|]. apply (extends_omap (VEnum n) (de_nth _ l (N.to_nat n))), de_nth_ext. eapply Forall_impl; [|exact H]. intros [? ?]; auto.
  - intros [= <- <-]. reflexivity.
  - apply H.
  - apply (extends_omap VTup (de_all de l)), de_all_ext, H.
  - apply (extends_omap VTup (de_all _ l)), de_all_ext. eapply Forall_impl; [|exact H]. intros [? ?]; auto.
Qed.

(** *** What is read is well formed *)
Definition good {B} (T : B -> Prop) (f : list N -> option (B * list N)) : Prop :=
  forall l v r, Forall byte_ok l -> f l = Some (v, r) -> T v /\ Forall byte_ok r.

Lemma varint_dec_lt k : forall i last l v r, last < 128 -> Forall byte_ok l -> varint_dec (S k) i last l = Some (v, r) ->
  (exists u, v = u * 2 ^ (7 * i) /\ u < 128 ^ N.of_nat k * (last + 1)) /\ Forall byte_ok r.
Proof.
  induction k; intros i last l v r HL Hl H; destruct l as [|b l]; try discriminate; inversion Hl; subst.
  - cbn [varint_dec] in H. destruct (N.ltb_spec b 128); [|discriminate]. destruct (N.ltb_spec last b); [discriminate|]. injection H as <- <-.
    split; [|auto]. exists (b mod 128). split; auto. rewrite N.mod_small by auto. change (128 ^ N.of_nat 0) with 1. lia.
  - change (varint_dec (S (S k)) i last (b :: l)) with
      (let carry := (b mod 128) * 2 ^ (7 * i) in
       if b <? 128 then Some (carry, l)
       else match varint_dec (S k) (i + 1) last l with Some (v, r) => Some (carry + v, r) | None => None end) in H. cbv zeta in H.
    assert (Q : 0 < 128 ^ N.of_nat k) by (apply N.neq_0_lt_0, N.pow_nonzero; discriminate).
    pose proof (N.mod_lt b 128 ltac:(discriminate)) as M.
    replace (128 ^ N.of_nat (S k)) with (128 * 128 ^ N.of_nat k) by (rewrite Nat2N.inj_succ, N.pow_succ_r'; reflexivity).
    destruct (b <? 128).
    + injection H as <- <-. split; auto. exists (b mod 128). split; auto. nia.
    + destruct (varint_dec (S k) (i + 1) last l) as [[v1 r1]|] eqn:E; [|discriminate]. injection H as <- <-.
      apply IHk in E as [(u & -> & E1) E2]; auto. split; auto. replace (7 * (i + 1)) with (7 + 7 * i) by lia. rewrite N.pow_add_r. change (2 ^ 7) with 128.
      change (match i with 0 => 0 | N.pos q => N.pos (q + (q + q~0)~0) end) with (7 * i).
      exists (b mod 128 + 128 * u). split; [set (p := 2 ^ (7 * i)); set (c := b mod 128); lia|].
      rewrite <- N.mul_assoc. set (q := 128 ^ N.of_nat k * (last + 1)) in *. lia.
Qed.
Lemma take_varint_good w : good (uint_ok w) (take_varint w).
Proof.
  intros l v r Hl H. unfold take_varint in H. unfold uint_ok.
  destruct w; cbn [varint_max varint_last] in H; (apply varint_dec_lt in H as [(u & -> & U) Hr]; [|lia|auto]); (split; [|auto]);
    change (7 * 0) with 0; rewrite N.pow_0_r, N.mul_1_r; (eapply N.lt_le_trans; [exact U|]); vm_compute; discriminate.
Qed.
Lemma take_n_good k : good (fun s => length s = k /\ Forall byte_ok s) (take_n k).
Proof.
  intros l v r Hl. unfold take_n. destruct (Nat.ltb_spec (length l) k); [discriminate|]. intros [= <- <-].
  rewrite <- (firstn_skipn k l) in Hl. apply Forall_app in Hl as [H1 H2]. rewrite firstn_length. split; [split; [lia|auto]|auto].
Qed.
Lemma take_bytes_good : good (fun s => Forall byte_ok s /\ len_ok s) take_bytes.
Proof.
  intros l v r Hl. unfold take_bytes. destruct (take_varint W64 l) as [[n r1]|] eqn:E; [|discriminate]. apply take_varint_good in E as [E1 E2]; auto.
  destruct (N.of_nat (length r1) <? n); [discriminate|]. intros H. apply take_n_good in H as [[H1 H2] H3]; auto. split; auto. split; auto.
  unfold len_ok. rewrite H1, N2Nat.id. exact E1.
Qed.
Lemma good_omap {A B} (T : A -> Prop) (T' : B -> Prop) (g : A -> B) f : good T f -> (forall a, T a -> T' (g a)) -> good T' (fun l => omap g (f l)).
Proof. intros H G l v r Hl E. destruct (f l) as [[a r1]|] eqn:Ef; [|discriminate]. injection E as <- <-. destruct (H _ _ _ Hl Ef). auto. Qed.
Lemma de_prim_good p : good (typed_prim p) (de_prim p).
Proof.
  destruct p; try (eapply good_omap; [apply take_varint_good|]; cbn [typed_prim]; auto using de_zigzag_ok); intros l v r Hl; cbn [de_prim]; try discriminate.
  - destruct l as [|b l]; [discriminate|]. inversion Hl; subst. destruct (b =? 0); [intros [= <- <-]; cbn; auto|]. destruct (b =? 1); [|discriminate]. intros [= <- <-]; cbn; auto.
  - destruct l as [|b l]; [discriminate|]. inversion Hl; subst. intros [= <- <-]. split; auto. cbn [typed_prim]. unfold byte_ok in *. destruct (N.ltb_spec b 128); lia.
  - destruct l as [|b l]; [discriminate|]. inversion Hl; subst. intros [= <- <-]. split; auto.
  - intros H. eapply (good_omap _ (typed_prim PF32) _ _ (take_n_good 4)) in H; eauto. intros a [E Ha]. cbn [typed_prim]. apply of_le_lt in Ha. rewrite E in Ha. exact Ha.
  - intros H. eapply (good_omap _ (typed_prim PF64) _ _ (take_n_good 8)) in H; eauto. intros a [E Ha]. cbn [typed_prim]. apply of_le_lt in Ha. rewrite E in Ha. exact Ha.
  - destruct (take_bytes l) as [[s r1]|] eqn:E; [|discriminate]. apply take_bytes_good in E as [_ E]; auto. destruct (4 <? length s)%nat; [discriminate|].
    destruct (utf8_ok s); [|discriminate]. destruct (utf8_next s) as [[c ?]|] eqn:En; [|discriminate]. intros [= <- <-]. split; auto. cbn. apply scalar_iff. eapply utf8_next_scalar; eauto.
  - destruct (take_bytes l) as [[s r1]|] eqn:E; [|discriminate]. apply take_bytes_good in E as [[_ E1] E]; auto.
    destruct (utf8_ok s) eqn:Eu; [|discriminate]. apply utf8_ok_text in Eu. intros [= <- <-]. split; auto. cbn. auto.
  - intros H. eapply (good_omap _ (typed_prim PByteArray) _ _ take_bytes_good) in H; eauto.
  - intros [= <- <-]. cbn. auto.
Qed.
Lemma de_all_good {A B} (T : A -> B -> Prop) (f : A -> list N -> option (B * list N)) ts : Forall (fun t => good (T t) (f t)) ts -> good (all2 T ts) (de_all f ts).
Proof.
  induction 1 as [|t ts Ht Hts IH]; intros l v r Hl; cbn [de_all]. { intros [= <- <-]. cbn. auto. }
  destruct (f t l) as [[a r1]|] eqn:E; [|discriminate]. apply Ht in E as [E1 E2]; auto. destruct (de_all f ts r1) as [[vs r2]|] eqn:E3; [|discriminate].
  apply IH in E3 as [E3 E4]; auto. intros [= <- <-]. cbn. auto.
Qed.
Lemma de_nth_good {A B} (T : A -> B -> Prop) (f : A -> list N -> option (B * list N)) ts : Forall (fun t => good (T t) (f t)) ts -> forall i, good (at_nth T ts i) (de_nth f ts i).
Proof. induction 1; intros [|i] l' v r; cbn [de_nth at_nth]; try discriminate; eauto. apply IHForall. Qed.
Lemma de_times_good {B} (T : B -> Prop) (f : list N -> option (B * list N)) n : good T f -> good (fun vs => Forall T vs /\ length vs = n) (de_times f n).
Proof.
  intros Hf. induction n as [|n IH]; intros l v r Hl; cbn [de_times]. { intros [= <- <-]. cbn. auto. }
  destruct (f l) as [[a r1]|] eqn:E; [|discriminate]. apply Hf in E as [E1 E2]; auto. destruct (de_times f n r1) as [[vs r2]|] eqn:E3; [|discriminate].
  apply IH in E3 as [[E3 E5] E4]; auto. intros [= <- <-]. split; auto. split; auto. cbn. auto.
Qed.
Lemma de_pair_good {A B} (T : A -> Prop) (T' : B -> Prop) f g : good T f -> good T' g -> good (fun x => T (fst x) /\ T' (snd x)) (de_pair f g).
Proof.
  intros Hf Hg l v r Hl. unfold de_pair. destruct (f l) as [[a r1]|] eqn:E; [|discriminate]. apply Hf in E as [E1 E2]; auto.
  destruct (g r1) as [[b r2]|] eqn:E3; [|discriminate]. apply Hg in E3 as [E3 E4]; auto. intros [= <- <-]. auto.
Qed.
Lemma de_good_all : (forall t, good (typed t) (de t)) /\ (forall d, good (typed_dmt d) (de_dmt d)) /\ (forall m, good (typed_dmv m) (de_dmv m)).
Proof.
  apply schema_ind; intros; try (intros l' v' r' Hl'); cbn [de de_dmt de_dmv].
  - apply H, Hl'.
  - apply de_prim_good, Hl'.
  - intros [= <- <-]. cbn. auto.
  - destruct l' as [|b l']; [discriminate|]. inversion Hl'; subst. destruct (b =? 0); [intros [= <- <-]; cbn; auto|]. destruct (b =? 1); [|discriminate].
    eapply (good_omap _ (typed_dmt (DOption n)) VSome _ H); auto.
  - apply H, Hl'.
  - destruct (take_varint W64 l') as [[k r1]|] eqn:E; [|discriminate]. apply take_varint_good in E as [E1 E2]; auto.
    eapply (good_omap _ (typed_dmt (DSeq n)) VSeq _ (de_times_good _ _ (N.to_nat k) H)); auto.
    intros a [Ha Hk]. split; auto. unfold len_ok. rewrite Hk, N2Nat.id. exact E1.
  - eapply (good_omap _ (typed_dmt (DTuple l)) VTup _ (de_all_good typed de l H)); auto.
  - eapply (good_omap _ (typed_dmt (DTupleStruct l)) VTup _ (de_all_good typed de l H)); auto.
  - destruct (take_varint W64 l') as [[n r1]|] eqn:E; [|discriminate]. apply take_varint_good in E as [E1 E2]; auto.
    eapply (good_omap _ (typed_dmt (DMap k v)) VMap _ (de_times_good _ _ (N.to_nat n) (de_pair_good _ _ _ _ H H0))); auto.
    intros a [Ha Hk]. split; auto. unfold len_ok. rewrite Hk, N2Nat.id. exact E1.
  - eapply (good_omap _ (typed_dmt (DStruct l)) VTup _ (de_all_good (fun x : str * NamedType => let (_, nt) := x in typed nt) _ l _)); auto.
    Unshelve. eapply Forall_impl; [|exact H]. intros [? ?]; auto.
  - destruct (take_varint W32 l') as [[n r1]|] eqn:E; [|discriminate]. apply take_varint_good in E as [E1 E2]; auto.
    destruct (_ <=? n); [discriminate|].
    eapply (good_omap _ (typed_dmt (DEnum l)) (VEnum n) _ (de_nth_good (fun x : str * DMV => let (_, m) := x in typed_dmv m) _ l _ (N.to_nat n))); auto.
    intros a Ha. split; auto.
    Unshelve. eapply Forall_impl; [|exact H]. intros [? ?]; auto.
  - intros [= <- <-]. cbn. auto.
  - apply H, Hl'.
  - eapply (good_omap _ (typed_dmv (VTuple l)) VTup _ (de_all_good typed de l H)); auto.
  - eapply (good_omap _ (typed_dmv (VStruct l)) VTup _ (de_all_good (fun x : str * NamedType => let (_, nt) := x in typed nt) _ l _)); auto.
    Unshelve. eapply Forall_impl; [|exact H]. intros [? ?]; auto.
Qed.
