(** Exactly which bytes are read as an integer: part of C63. *)
From Coq Require Import NArith List Bool Arith Lia.
From Verif Require Import KeyModel HeaderModel PostcardModel CodecModel.
Import ListNotations.
Local Open Scope N_scope.

(** Integers travel in groups of seven bits, the lowest first; all bytes but the last have
    their top bit set. *)
Fixpoint groups_value (bs : list N) : N :=
  match bs with [] => 0 | b :: tl => b mod 128 + 128 * groups_value tl end.
Definition groups (bs : list N) : Prop :=
  exists init z, bs = init ++ [z] /\ Forall (fun b => 128 <= b) init /\ z < 128.

Lemma groups_lt bs : groups_value bs < 128 ^ N.of_nat (length bs).
Proof.
  induction bs as [|b tl IH]; [reflexivity|]. cbn [groups_value length]. rewrite Nat2N.inj_succ, N.pow_succ_r'.
  pose proof (N.mod_lt b 128 ltac:(discriminate)). lia.
Qed.
Lemma groups_cons b tl : groups (b :: tl) <-> (tl = [] /\ b < 128) \/ (128 <= b /\ groups tl).
Proof.
  split.
  - intros ([|x init] & z & E & F & Z); cbn in E; injection E as -> ->; [left; auto|right]. inversion F; subst. split; auto. exists init, z. auto.
  - intros [[-> H]|[H (init & z & -> & F & Z)]]; [exists [], b; auto|]. exists (b :: init), z. repeat split; auto.
Qed.

Lemma some_pair {A B} (a c : A) (b d : B) : Some (a, b) = Some (c, d) -> a = c /\ b = d.
Proof. intros H. now injection H. Qed.
Lemma varint_dec_iff k last : last < 128 -> forall i l v r,
  varint_dec (S k) i last l = Some (v, r) <->
  exists used, l = used ++ r /\ groups used /\ (length used <= S k)%nat /\ v = groups_value used * 2 ^ (7 * i) /\
    groups_value used < 128 ^ N.of_nat k * (last + 1).
Proof.
  intros HL. induction k as [|k IH]; intros i l v r.
  - destruct l as [|b l]; cbn [varint_dec].
    { split; [discriminate|]. intros (used & E & (init & z & -> & _) & _). destruct init; discriminate. }
    destruct (N.ltb_spec b 128) as [B|B].
    + split.
      * destruct (N.ltb_spec last b); [discriminate|]. intros E. apply some_pair in E as [<- <-]. exists [b]. cbn [groups_value app length]. rewrite N.mul_0_r, N.add_0_r.
        rewrite N.mod_small by lia. repeat split; auto; [exists [], b; auto|change (128 ^ N.of_nat 0) with 1; lia].
      * intros (used & E & G & Ln & -> & V). destruct used as [|x [|y used]]; cbn [length] in Ln; [destruct G as ([|] & ? & X & _); discriminate| |lia].
        cbn in E. injection E as -> ->. cbn [groups_value] in *. rewrite N.mul_0_r, N.add_0_r in *. rewrite N.mod_small in * by lia. change (128 ^ N.of_nat 0) with 1 in V.
        destruct (N.ltb_spec last x); [lia|]. reflexivity.
    + split; [discriminate|]. intros (used & E & G & Ln & -> & V).
      destruct used as [|x [|y used]]; cbn [length] in Ln; [destruct G as ([|] & ? & X & _); discriminate| |lia].
      cbn in E. injection E as -> ->. apply groups_cons in G as [[_ G]|[_ (init & z & X & _)]]; [lia|destruct init; discriminate].
  - destruct l as [|b l].
    { split; [discriminate|]. intros (used & E & (init & z & -> & _) & _). destruct init; discriminate. }
    change (varint_dec (S (S k)) i last (b :: l)) with
      (let carry := (b mod 128) * 2 ^ (7 * i) in
       if b <? 128 then Some (carry, l)
       else match varint_dec (S k) (i + 1) last l with Some (v, r) => Some (carry + v, r) | None => None end). cbv zeta.
    assert (P : 2 ^ (7 * (i + 1)) = 128 * 2 ^ (7 * i)). { replace (7 * (i + 1)) with (7 + 7 * i) by lia. rewrite N.pow_add_r. reflexivity. }
    assert (Q : 128 ^ N.of_nat (S k) = 128 * 128 ^ N.of_nat k) by (rewrite Nat2N.inj_succ, N.pow_succ_r'; reflexivity).
    pose proof (N.mod_lt b 128 ltac:(discriminate)) as Mb.
    assert (K1 : 1 <= 128 ^ N.of_nat k) by (assert (128 ^ N.of_nat k <> 0) by (apply N.pow_nonzero; discriminate); lia).
    destruct (N.ltb_spec b 128) as [B|B].
    + split.
      * intros E. apply some_pair in E as [<- <-]. exists [b]. cbn [groups_value app length]. rewrite N.mul_0_r, N.add_0_r.
        repeat split; auto; [exists [], b; auto|lia|]. rewrite Q. nia.
      * intros (used & E & G & Ln & -> & V). destruct used as [|x used]; [destruct G as ([|] & ? & X & _); discriminate|].
        cbn in E. injection E as -> E. apply groups_cons in G as [[-> _]|[G _]]; [|lia]. cbn in E. subst l. cbn [groups_value]. rewrite N.mul_0_r, N.add_0_r. reflexivity.
    + split.
      * destruct (varint_dec (S k) (i + 1) last l) as [[v1 r1]|] eqn:E; [|discriminate]. intros X. apply some_pair in X as [<- <-].
        apply IH in E as (used & -> & G & Ln & -> & V). exists (b :: used). cbn [groups_value app length]. split; [reflexivity|]. split; [apply groups_cons; auto|].
        split; [lia|]. split; [rewrite P; clear; generalize (2 ^ (7 * i)), (groups_value used), (b mod 128); intros; ring|]. rewrite Q. nia.
      * intros (used & E & G & Ln & -> & V). destruct used as [|x used]; [destruct G as ([|] & ? & X & _); discriminate|].
        cbn in E. injection E as -> E. apply groups_cons in G as [[_ G]|[_ G]]; [lia|]. cbn [groups_value length] in *.
        assert (D : varint_dec (S k) (i + 1) last l = Some (groups_value used * 2 ^ (7 * (i + 1)), r)).
        { apply IH. exists used. repeat split; auto; [lia|]. rewrite Q, <- N.mul_assoc in V. revert V. clear.
          generalize (x mod 128), (groups_value used), (128 ^ N.of_nat k * (last + 1)). intros; lia. }
        rewrite D, P. f_equal. f_equal. clear. generalize (2 ^ (7 * i)), (groups_value used), (x mod 128); intros; ring.
Qed.

(** The bytes [used] are read as the integer [v] of so many bits: groups of seven bits, no
    more of them than it takes, with the value [v], which fits. *)
Definition reads_as (bits : N) (used : list N) (v : N) : Prop :=
  groups used /\ 7 * (N.of_nat (length used) - 1) < bits /\ groups_value used = v /\ v < 2 ^ bits.

Definition bits_of (w : width) : N := match w with W16 => 16 | W32 => 32 | W64 => 64 | W128 => 128 end.

(** ** C63 (integers): exactly which bytes are accepted *)
Theorem C63_varints_exact :
  forall w l v r, take_varint w l = Some (v, r) <-> exists used, l = used ++ r /\ reads_as (bits_of w) used v.
Proof.
  intros w l v r. unfold take_varint, reads_as. destruct w; cbn [varint_max varint_last bits_of]; rewrite varint_dec_iff by reflexivity.
  all: split; intros (used & E & R); exists used; (split; [exact E|]).
  all: first [destruct R as (G & Ln & -> & V) | destruct R as (G & Ln & <- & V)]; rewrite ?N.mul_0_r, ?N.mul_1_r.
  all: repeat split; auto; try lia.
  all: match goal with
       | V : _ < ?a |- _ < ?b => let a' := eval vm_compute in a in let b' := eval vm_compute in b in
           change (groups_value used < a') in V; change (groups_value used < b'); exact V
       | |- _ = _ => change (2 ^ (7 * 0)) with 1; lia
       end.
Qed.
Print Assumptions C63_varints_exact.

(** The lengths of strings and lists, and the argument of a ping, are read in the same
    way (PostcardModel.v). *)
Theorem C63_lengths_exact :
  forall l v r, (take_u64 l = Some (v, r) <-> exists used, l = used ++ r /\ reads_as 64 used v) /\
    (take_u32 l = Some (v, r) <-> exists used, l = used ++ r /\ reads_as 32 used v).
Proof. intros l v r. split; [exact (C63_varints_exact W64 l v r)|exact (C63_varints_exact W32 l v r)]. Qed.
Print Assumptions C63_lengths_exact.

(** 300 in two bytes, and with a superfluous third; 2^16 is not accepted as 16 bits. *)
Example C63_varints_ex :
  take_varint W16 [172; 2; 9] = Some (300, [9]) /\ take_varint W16 [172; 130; 0] = Some (300, []) /\
  reads_as 16 [172; 130; 0] 300 /\ take_varint W16 [128; 128; 4] = None /\ take_varint W32 [128; 128; 4] = Some (65536, []).
Proof.
  repeat split; try reflexivity. exists [172; 130], 0. repeat split; try reflexivity. repeat constructor; discriminate.
Qed.
