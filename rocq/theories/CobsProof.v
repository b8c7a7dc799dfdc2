(** Lemmas about the COBS codec. *)
From Coq Require Import NArith List Bool Arith Lia.
From Verif Require Import CobsModel.
Import ListNotations.
Local Open Scope N_scope.

Definition nz (l : list N) : Prop := Forall (fun b => b <> 0) l.

(** ** The decoder as a function on lists *)
Fixpoint decode_f (fuel : nat) (l : list N) : option (list N) :=
  match fuel with
  | O => Some []
  | S f =>
    match l with
    | [] => Some []
    | c :: tl =>
      let code := N.to_nat c in
      if ((length l <? code)%nat && negb (code =? 1)%nat)%bool then None
      else
        let n := (code - 1)%nat in
        option_map (fun d => firstn n tl ++
                             (if (negb (code =? 255)%nat && (n <? length tl)%nat)%bool then [0] else []) ++ d)
                   (decode_f f (skipn n tl))
    end
  end.

Lemma set_at_len buf : forall i v, length (set_at buf i v) = length buf.
Proof. induction buf; destruct i; cbn; auto. Qed.
Lemma skipn_set_at buf : forall i v k, (i < k)%nat -> skipn k (set_at buf i v) = skipn k buf.
Proof.
  induction buf as [|x buf IH]; intros [|i] v [|k] H; cbn; auto; try lia. apply IH. lia.
Qed.
Lemma firstn_set_at buf : forall i v, (i < length buf)%nat ->
  firstn (S i) (set_at buf i v) = firstn i buf ++ [v].
Proof.
  induction buf as [|x buf IH]; intros [|i] v H; cbn in H; try lia; auto.
  cbn [set_at]. rewrite firstn_cons, IH by lia. reflexivity.
Qed.
Lemma nth_skipn (l : list N) : forall k d x r, skipn k l = x :: r -> nth k l d = x.
Proof. induction l as [|y l IH]; intros [|k] d x r H; cbn in *; try discriminate; [congruence|eauto]. Qed.
Lemma skipn_S (l : list N) : forall k x r, skipn k l = x :: r -> skipn (S k) l = r.
Proof.
  induction l as [|y l IH]; intros [|k] x r H; cbn in *; try discriminate; [congruence|].
  destruct l; [destruct k; discriminate|]. apply (IH k x r). exact H.
Qed.
Lemma skipn_some (l : list N) k : (k < length l)%nat -> exists x r, skipn k l = x :: r.
Proof.
  intros H. destruct (skipn k l) eqn:E; [|eauto].
  assert (L := skipn_length k l). rewrite E in L. cbn in L. lia.
Qed.

Lemma copy_bytes_spec n : forall buf src dst, (dst < src)%nat -> (src + n <= length buf)%nat ->
  length (copy_bytes n buf src dst) = length buf /\
  firstn (dst + n) (copy_bytes n buf src dst) = firstn dst buf ++ firstn n (skipn src buf) /\
  (forall k, (src + n <= k)%nat -> skipn k (copy_bytes n buf src dst) = skipn k buf).
Proof.
  induction n as [|n IH]; intros buf src dst Hd Hl; cbn [copy_bytes].
  - rewrite Nat.add_0_r. rewrite firstn_O, app_nil_r. auto.
  - destruct (skipn_some buf src ltac:(lia)) as (x & r & E).
    rewrite (nth_skipn _ _ _ _ _ E).
    destruct (IH (set_at buf dst x) (S src) (S dst) ltac:(lia) ltac:(rewrite set_at_len; lia)) as (A & B & C).
    rewrite set_at_len in A. split; [exact A|]. split.
    + replace (dst + S n)%nat with (S dst + n)%nat by lia. rewrite B, firstn_set_at by lia.
      rewrite skipn_set_at by lia. rewrite (skipn_S _ _ _ _ E), E, <- app_assoc. reflexivity.
    + intros k Hk. rewrite C by lia. apply skipn_set_at. lia.
Qed.

Lemma skipn_add (l : list N) a b : skipn (a + b) l = skipn b (skipn a l).
Proof. revert l; induction a; intros [|x l]; cbn; auto. now rewrite skipn_nil. Qed.

Lemma decode_loop_spec fuel : forall buf src dst l tail,
  skipn src buf = l ++ tail -> (dst <= src)%nat -> (src <= length buf)%nat ->
  let '(buf', r) := decode_loop fuel buf src dst (src + length l) in
  length buf' = length buf /\
  match decode_f fuel l with
  | None => r = None
  | Some d => r = Some (dst + length d)%nat /\ firstn (dst + length d) buf' = firstn dst buf ++ d
  end.
Proof.
  induction fuel as [|fuel IH]; intros buf src dst l tail H Hd Hs.
  - cbn. rewrite Nat.add_0_r, app_nil_r. auto.
  - cbn [decode_loop decode_f]. destruct l as [|c tl].
    + cbn [length]. rewrite Nat.add_0_r, Nat.ltb_irrefl. cbn [length]. rewrite Nat.add_0_r, app_nil_r. auto.
    + assert (Hlen : length buf = (src + length (c :: tl) + length tail)%nat).
      { assert (L := skipn_length src buf). rewrite H, app_length in L. lia. }
      cbn [length] in *. cbn [app] in H.
      destruct (src <? src + S (length tl))%nat eqn:Lt; [|apply Nat.ltb_ge in Lt; lia].
      rewrite (nth_skipn _ _ _ _ _ H).
      assert (Ec : (src + S (length tl) <? src + N.to_nat c)%nat = (S (length tl) <? N.to_nat c)%nat).
      { destruct (S (length tl) <? N.to_nat c)%nat eqn:X; [apply Nat.ltb_lt in X; apply Nat.ltb_lt; lia|apply Nat.ltb_ge in X; apply Nat.ltb_ge; lia]. }
      rewrite Ec. destruct ((S (length tl) <? N.to_nat c)%nat && negb (N.to_nat c =? 1)%nat)%bool eqn:G; [auto|].
      assert (Hc : (N.to_nat c - 1 <= length tl)%nat).
      { apply andb_false_iff in G. destruct G as [G|G].
        - apply Nat.ltb_ge in G. lia.
        - apply negb_false_iff, Nat.eqb_eq in G. lia. }
      set (n := (N.to_nat c - 1)%nat) in *.
      assert (Htl : skipn (S src) buf = tl ++ tail) by (eapply skipn_S; eauto).
      destruct (copy_bytes_spec n buf (S src) dst ltac:(lia) ltac:(lia)) as (A & B & C).
      set (buf1 := copy_bytes n buf (S src) dst) in *.
      assert (E1 : (S src + n <? src + S (length tl))%nat = (n <? length tl)%nat).
      { destruct (n <? length tl)%nat eqn:X; [apply Nat.ltb_lt in X; apply Nat.ltb_lt; lia|apply Nat.ltb_ge in X; apply Nat.ltb_ge; lia]. }
      rewrite E1.
      assert (Hsk : skipn (S src + n) buf = skipn n tl ++ tail).
      { rewrite skipn_add, Htl. rewrite skipn_app. replace (n - length tl)%nat with 0%nat by lia. reflexivity. }
      assert (Hf : firstn n (skipn (S src) buf) = firstn n tl).
      { rewrite Htl, firstn_app. replace (n - length tl)%nat with 0%nat by lia. cbn. apply app_nil_r. }
      rewrite Hf in B.
      assert (Hn : length (firstn n tl) = n) by (rewrite firstn_length; lia).
      replace (src + S (length tl))%nat with (S src + n + length (skipn n tl))%nat by (rewrite skipn_length; lia).
      destruct (negb (N.to_nat c =? 255)%nat && (n <? length tl)%nat)%bool eqn:Z.
      * apply andb_true_iff in Z. destruct Z as [_ Z]. apply Nat.ltb_lt in Z.
        specialize (IH (set_at buf1 (dst + n) 0) (S src + n)%nat (S (dst + n)) (skipn n tl) tail).
        rewrite skipn_set_at in IH by lia. rewrite (C (S src + n)%nat) in IH by lia. rewrite set_at_len in IH.
        specialize (IH Hsk ltac:(lia) ltac:(lia)).
        destruct (decode_loop fuel (set_at buf1 (dst + n) 0) (S src + n) (S (dst + n)) (S src + n + length (skipn n tl))) as [buf' r].
        destruct IH as [L R]. split; [lia|]. destruct (decode_f fuel (skipn n tl)) as [d|]; cbn [option_map]; auto.
        destruct R as [-> R]. rewrite !app_length, Hn. cbn [length]. split; [f_equal; lia|].
        replace (dst + (n + (1 + length d)))%nat with (S (dst + n) + length d)%nat by lia.
        rewrite R, firstn_set_at, B by lia. now rewrite <- !app_assoc.
      * specialize (IH buf1 (S src + n)%nat (dst + n)%nat (skipn n tl) tail).
        rewrite (C (S src + n)%nat) in IH by lia. specialize (IH Hsk ltac:(lia) ltac:(lia)).
        destruct (decode_loop fuel buf1 (S src + n) (dst + n) (S src + n + length (skipn n tl))) as [buf' r].
        destruct IH as [L R]. split; [lia|]. destruct (decode_f fuel (skipn n tl)) as [d|]; cbn [option_map]; auto.
        destruct R as [-> R]. cbn [app]. rewrite app_length, Hn. split; [f_equal; lia|].
        rewrite Nat.add_assoc, R, B. now rewrite <- app_assoc.
Qed.

Lemma decode_f_fuel a : forall b l, (length l < a)%nat -> (length l < b)%nat -> decode_f a l = decode_f b l.
Proof.
  induction a as [|a IH]; intros b l Ha Hb; [lia|]. destruct b as [|b]; [lia|]. cbn [decode_f].
  destruct l as [|c tl]; auto. destruct (_ && _)%bool; auto. cbn [length] in *.
  rewrite (IH b); auto; rewrite skipn_length; lia.
Qed.

(** Decoding a zero-free block of bytes. *)
Definition decode (l : list N) : option (list N) := decode_f (S (length l)) l.

Lemma decode_cons c tl :
  decode (c :: tl) =
  if ((S (length tl) <? N.to_nat c)%nat && negb (N.to_nat c =? 1)%nat)%bool then None
  else option_map (fun d => firstn (N.to_nat c - 1) tl ++
         (if (negb (N.to_nat c =? 255)%nat && (N.to_nat c - 1 <? length tl)%nat)%bool then [0] else []) ++ d)
       (decode (skipn (N.to_nat c - 1) tl)).
Proof.
  unfold decode at 1. cbn [length]. remember (S (length tl)) as f eqn:Hf. cbn [decode_f length]. rewrite <- Hf.
  destruct (_ && _)%bool; auto. unfold decode.
  rewrite (decode_f_fuel f (S (length (skipn (N.to_nat c - 1) tl)))); auto; rewrite skipn_length; lia.
Qed.
Lemma decode_nil : decode [] = Some [].
Proof. reflexivity. Qed.

Lemma zero_pos_nz l : nz l -> zero_pos l = None.
Proof.
  induction 1 as [|b l Hb F IH]; auto. cbn. rewrite IH. destruct (N.eqb_spec b 0); [congruence|reflexivity].
Qed.
Lemma zero_pos_app l r : nz l -> zero_pos (l ++ 0 :: r) = Some (length l).
Proof.
  induction 1 as [|b l Hb F IH]; auto. cbn. rewrite IH. destruct (N.eqb_spec b 0); [congruence|reflexivity].
Qed.
Lemma zero_pos_some l n : zero_pos l = Some n -> exists a b, l = a ++ 0 :: b /\ nz a /\ n = length a.
Proof.
  revert n; induction l as [|x l IH]; intros n H; cbn in H; [discriminate|].
  destruct (N.eqb_spec x 0) as [->|Hx].
  - injection H as <-. exists [], l. repeat split; constructor.
  - destruct (zero_pos l) as [m|]; [|discriminate]. injection H as <-. destruct (IH m eq_refl) as (a & b & -> & Ha & ->).
    exists (x :: a), b. repeat split; auto. constructor; auto.
Qed.
Lemma zero_pos_none l : zero_pos l = None -> nz l.
Proof.
  induction l as [|x l IH]; intros H; [constructor|]. cbn in H. destruct (N.eqb_spec x 0); [discriminate|].
  destruct (zero_pos l); [discriminate|]. constructor; auto. now apply IH.
Qed.

(** In-place decoding, with or without a terminator, agrees with [decode]. *)
Lemma decode_in_place_spec l tail : nz l -> tail = [] \/ (exists r, tail = 0 :: r) ->
  let '(buf', r) := decode_in_place (l ++ tail) in
  length buf' = length (l ++ tail) /\
  match decode l with
  | None => r = None
  | Some d => r = Some (length d) /\ firstn (length d) buf' = d
  end.
Proof.
  intros Hl Ht. unfold decode_in_place.
  assert (E : match zero_pos (l ++ tail) with Some n => n | None => length (l ++ tail) end = length l).
  { destruct Ht as [-> | [r ->]].
    - rewrite app_nil_r, zero_pos_nz; auto.
    - rewrite zero_pos_app; auto. }
  rewrite E. pose proof (decode_loop_spec (S (length l)) (l ++ tail) 0 0 l tail eq_refl ltac:(lia) ltac:(lia)) as D.
  cbn [Nat.add] in D. destruct (decode_loop (S (length l)) (l ++ tail) 0 0 (length l)) as [buf' r].
  exact D.
Qed.

(** ** Round trip *)
Lemma decode_block blk rest : (length blk <= 253)%nat -> nz blk ->
  decode (N.of_nat (S (length blk)) :: blk ++ rest) =
  option_map (fun d => blk ++ (match rest with [] => [] | _ => [0] end) ++ d) (decode rest).
Proof.
  intros Hl Hb. rewrite decode_cons, Nnat.Nat2N.id.
  replace (S (length blk) - 1)%nat with (length blk) by lia.
  rewrite app_length.
  replace ((S (length blk + length rest) <? S (length blk))%nat) with false by (symmetry; apply Nat.ltb_ge; lia).
  cbn [andb]. rewrite firstn_app, firstn_all, Nat.sub_diag, firstn_O, app_nil_r.
  rewrite skipn_app, skipn_all, Nat.sub_diag, skipn_O. cbn [app].
  replace (S (length blk) =? 255)%nat with false by (symmetry; apply Nat.eqb_neq; lia). cbn [negb andb].
  destruct rest; cbn [length]; [rewrite Nat.add_0_r, Nat.ltb_irrefl; reflexivity|].
  replace (length blk <? length blk + S (length rest))%nat with true by (symmetry; apply Nat.ltb_lt; lia). reflexivity.
Qed.
Lemma decode_full blk rest : length blk = 254%nat ->
  decode (255 :: blk ++ rest) = option_map (fun d => blk ++ d) (decode rest).
Proof.
  intros Hl. rewrite decode_cons. change (N.to_nat 255) with 255%nat.
  rewrite app_length, Hl. replace (S (254 + length rest) <? 255)%nat with false by (symmetry; apply Nat.ltb_ge; lia).
  cbn [andb]. change (255 =? 255)%nat with true. cbn [negb andb].
  change (255 - 1)%nat with 254%nat. rewrite <- Hl. rewrite firstn_app, firstn_all, Nat.sub_diag, firstn_O, app_nil_r.
  rewrite skipn_app, skipn_all, Nat.sub_diag, skipn_O. reflexivity.
Qed.

Lemma nz_app a b : nz a -> nz b -> nz (a ++ b).
Proof. intros; now apply Forall_app. Qed.
Lemma nz_code n : N.of_nat (S n) <> 0.
Proof. lia. Qed.

Lemma encode_from_nonempty of_ m : forall blk, encode_from of_ blk m <> [].
Proof.
  induction m as [|b m IH]; intros blk; cbn; [discriminate|].
  destruct (b =? 0); [discriminate|]. destruct (_ =? _)%nat; [discriminate|]. apply IH.
Qed.

Lemma encode_from_decode of_ m : forall blk, (length blk <= 253)%nat -> nz blk ->
  decode (encode_from of_ blk m) = Some (blk ++ m).
Proof.
  induction m as [|b m IH]; intros blk Hl Hb.
  - cbn [encode_from]. rewrite <- (app_nil_r blk) at 2. rewrite decode_block by auto.
    cbn. now rewrite app_nil_r.
  - cbn [encode_from]. destruct (N.eqb_spec b 0) as [->|Hnz].
    + rewrite decode_block by auto. rewrite IH by (solve [cbn; lia | constructor]).
      pose proof (encode_from_nonempty of_ m []) as NE. destruct (encode_from of_ [] m); [congruence|]. reflexivity.
    + destruct (length blk =? 253)%nat eqn:L.
      * apply Nat.eqb_eq in L.
        set (rest := match m with [] => if of_ then [1] else [] | _ => encode_from of_ [] m end).
        assert (R : decode rest = Some m).
        { unfold rest. destruct m; [destruct of_; reflexivity|]. apply IH; [cbn; lia|constructor]. }
        change (b :: rest) with ([b] ++ rest). rewrite app_assoc, decode_full by (rewrite app_length; cbn; lia).
        rewrite R. cbn. now rewrite <- app_assoc.
      * apply Nat.eqb_neq in L. rewrite IH.
        -- now rewrite <- app_assoc.
        -- rewrite app_length; cbn; lia.
        -- apply nz_app; auto. constructor; auto.
Qed.
Lemma encode_decode oe of_ m : decode (encode oe of_ m) = Some m.
Proof.
  destruct m as [|b m]; [destruct oe; reflexivity|]. unfold encode. now rewrite encode_from_decode by (solve [cbn; lia | constructor]).
Qed.

Lemma encode_from_nz of_ m : forall blk, nz blk -> nz (encode_from of_ blk m).
Proof.
  induction m as [|b m IH]; intros blk Hb; cbn [encode_from].
  - constructor; auto. apply nz_code.
  - destruct (N.eqb_spec b 0).
    + constructor; [apply nz_code|]. apply nz_app; auto. apply IH. constructor.
    + destruct (_ =? _)%nat.
      * constructor; [discriminate|]. apply nz_app; auto. constructor; auto.
        destruct m; [destruct of_; repeat constructor; discriminate|]. apply IH. constructor.
      * apply IH. apply nz_app; auto. constructor; auto.
Qed.
Lemma encode_nz oe of_ m : nz (encode oe of_ m).
Proof.
  destruct m as [|b m]; [destruct oe; repeat constructor; discriminate|]. apply encode_from_nz. constructor.
Qed.

Lemma encode_from_len of_ m : forall blk, (length blk <= 253)%nat ->
  (length (encode_from of_ blk m) <= S (length blk + length m + (length blk + length m) / 254))%nat.
Proof.
  induction m as [|b m IH]; intros blk Hl; cbn [encode_from].
  - cbn [length]. rewrite Nat.add_0_r. lia.
  - destruct (b =? 0).
    + cbn [length]. rewrite app_length. specialize (IH [] ltac:(cbn; lia)). cbn [length Nat.add] in IH.
      assert (M : (length m / 254 <= (length blk + S (length m)) / 254)%nat) by (apply Nat.div_le_mono; lia). lia.
    + destruct (length blk =? 253)%nat eqn:L.
      * apply Nat.eqb_eq in L. cbn [length]. rewrite app_length. cbn [length]. rewrite L.
        replace (253 + S (length m))%nat with (1 * 254 + length m)%nat by lia.
        rewrite Nat.div_add_l by lia.
        destruct m as [|b' m']; [destruct of_; cbn [length]; lia|].
        specialize (IH [] ltac:(cbn; lia)). cbn [length Nat.add] in IH |- *. lia.
      * apply Nat.eqb_neq in L. specialize (IH (blk ++ [b])). rewrite app_length in IH. cbn [length] in IH.
        specialize (IH ltac:(lia)). cbn [length].
        replace (length blk + S (length m))%nat with (length blk + 1 + length m)%nat by lia. lia.
Qed.
Lemma encode_len oe of_ m : (length (encode oe of_ m) <= length m + length m / 254 + 1)%nat.
Proof.
  destruct m as [|b m]; [destruct oe; cbn; lia|]. unfold encode.
  pose proof (encode_from_len of_ (b :: m) [] ltac:(cbn; lia)) as H. cbn [length Nat.add] in *. lia.
Qed.
(** Encoded bytes are bytes. *)
Lemma encode_from_byte of_ m : forall blk, (length blk <= 253)%nat ->
  Forall (fun b => b < 256) blk -> Forall (fun b => b < 256) m -> Forall (fun b => b < 256) (encode_from of_ blk m).
Proof.
  induction m as [|b m IH]; intros blk Hl Hb Hm; cbn [encode_from].
  - constructor; auto. lia.
  - inversion Hm; subst. destruct (N.eqb_spec b 0).
    + constructor; [lia|]. apply Forall_app; split; auto. apply IH; auto. cbn; lia.
    + destruct (length blk =? 253)%nat eqn:L.
      * constructor; [lia|]. apply Forall_app; split; auto. constructor; auto.
        destruct m; [destruct of_; repeat constructor|]. apply IH; auto. cbn; lia.
      * apply Nat.eqb_neq in L. apply IH; auto; [rewrite app_length; cbn; lia|]. apply Forall_app; auto.
Qed.
