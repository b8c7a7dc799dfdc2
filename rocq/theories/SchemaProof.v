(** Lemmas about schema comparison and type collection. *)
From Coq Require Import NArith List Bool Arith Lia.
From Verif Require Import KeyModel HeaderModel SchemaModel SchemaSpec.
Import ListNotations.

(** *** Induction over schemas *)
Section Ind.
  Variable P : NamedType -> Prop.
  Variable Q : DMT -> Prop.
  Variable R : DMV -> Prop.
  Hypothesis HNT : forall name ty, Q ty -> P (NT name ty).
  Hypothesis HPrim : forall p, Q (DPrim p).
  Hypothesis HUnit : Q DUnitStruct.
  Hypothesis HOpt : forall n, P n -> Q (DOption n).
  Hypothesis HNew : forall n, P n -> Q (DNewtypeStruct n).
  Hypothesis HSeq : forall n, P n -> Q (DSeq n).
  Hypothesis HTup : forall l, Forall P l -> Q (DTuple l).
  Hypothesis HTupS : forall l, Forall P l -> Q (DTupleStruct l).
  Hypothesis HMap : forall k v, P k -> P v -> Q (DMap k v).
  Hypothesis HStruct : forall l, Forall (fun p => P (snd p)) l -> Q (DStruct l).
  Hypothesis HEnum : forall l, Forall (fun p => R (snd p)) l -> Q (DEnum l).
  Hypothesis HVU : R VUnit.
  Hypothesis HVN : forall n, P n -> R (VNewtype n).
  Hypothesis HVT : forall l, Forall P l -> R (VTuple l).
  Hypothesis HVS : forall l, Forall (fun p => P (snd p)) l -> R (VStruct l).

  Fixpoint nt_rect' (n : NamedType) : P n :=
    match n with NT name ty => HNT name ty (dmt_rect' ty) end
  with dmt_rect' (d : DMT) : Q d :=
    match d with
    | DPrim p => HPrim p
    | DUnitStruct => HUnit
    | DOption n => HOpt n (nt_rect' n)
    | DNewtypeStruct n => HNew n (nt_rect' n)
    | DSeq n => HSeq n (nt_rect' n)
    | DTuple l => HTup l ((fix go l : Forall P l :=
        match l with [] => Forall_nil _ | x :: tl => Forall_cons x (nt_rect' x) (go tl) end) l)
    | DTupleStruct l => HTupS l ((fix go l : Forall P l :=
        match l with [] => Forall_nil _ | x :: tl => Forall_cons x (nt_rect' x) (go tl) end) l)
    | DMap k v => HMap k v (nt_rect' k) (nt_rect' v)
    | DStruct l => HStruct l ((fix go (l : list (str * NamedType)) : Forall (fun p => P (snd p)) l :=
        match l with [] => Forall_nil _
        | x :: tl => Forall_cons x (match x as x0 return P (snd x0) with (_, y) => nt_rect' y end) (go tl) end) l)
    | DEnum l => HEnum l ((fix go (l : list (str * DMV)) : Forall (fun p => R (snd p)) l :=
        match l with [] => Forall_nil _
        | x :: tl => Forall_cons x (match x as x0 return R (snd x0) with (_, y) => dmv_rect' y end) (go tl) end) l)
    end
  with dmv_rect' (v : DMV) : R v :=
    match v with
    | VUnit => HVU
    | VNewtype n => HVN n (nt_rect' n)
    | VTuple l => HVT l ((fix go l : Forall P l :=
        match l with [] => Forall_nil _ | x :: tl => Forall_cons x (nt_rect' x) (go tl) end) l)
    | VStruct l => HVS l ((fix go (l : list (str * NamedType)) : Forall (fun p => P (snd p)) l :=
        match l with [] => Forall_nil _
        | x :: tl => Forall_cons x (match x as x0 return P (snd x0) with (_, y) => nt_rect' y end) (go tl) end) l)
    end.

  Lemma schema_ind : (forall n, P n) /\ (forall d, Q d) /\ (forall v, R v).
  Proof. split; [apply nt_rect'|split; [apply dmt_rect'|apply dmv_rect']]. Qed.
End Ind.

(** *** Equality *)
Lemma bytes_eq_iff a : forall b, length a = length b -> (bytes_eq a b = true <-> a = b).
Proof.
  induction a; intros [|y b] L; cbn in *; try discriminate; [tauto|].
  destruct (N.eqb_spec a y) as [->|N].
  - rewrite IHa by lia. split; congruence.
  - split; [discriminate|congruence].
Qed.
Lemma str_eq_iff a b : str_eq a b = true <-> a = b.
Proof.
  unfold str_eq. destruct (Nat.eqb_spec (length a) (length b)) as [E|E].
  - now apply bytes_eq_iff.
  - split; [discriminate|]. intros ->. congruence.
Qed.
Lemma prim_eqb_iff a b : prim_eqb a b = true <-> a = b.
Proof. split; [destruct a, b; cbn; congruence|intros ->; now destruct b]. Qed.

Ltac len_case :=
  match goal with |- context [length ?a =? length ?b] =>
    destruct (Nat.eqb_spec (length a) (length b)) as [Hlen|Hlen];
    [|split; [discriminate|intros [= ->]; congruence]] end.

Lemma eq_iffs :
  (forall a b, nty_eq a b = true <-> a = b) /\
  (forall a b, dmt_eq a b = true <-> a = b) /\
  (forall a b, dmv_eq a b = true <-> a = b).
Proof.
  assert (L1 : forall l, Forall (fun a => forall b, nty_eq a b = true <-> a = b) l ->
    forall ys, length l = length ys ->
    ((fix go (xs ys : list NamedType) : bool :=
           match xs, ys with
           | x :: xs', y :: ys' => if negb (nty_eq x y) then false else go xs' ys'
           | _, _ => true
           end) l ys = true <-> l = ys)).
  { induction 1 as [|x l Hx Hl IH]; intros [|y ys] L; cbn in L; try discriminate; [tauto|].
    specialize (Hx y). destruct (nty_eq x y); cbn [negb].
    - rewrite IH by lia. assert (x = y) as -> by (apply Hx; auto). split; congruence.
    - split; [discriminate|]. intros [= E _]. apply Hx in E. discriminate. }
  assert (L2 : forall l, Forall (fun p : str * NamedType => forall b, nty_eq (snd p) b = true <-> snd p = b) l ->
    forall ys, length l = length ys ->
    ((fix go (xs ys : list (str * NamedType)) : bool :=
           match xs, ys with
           | (n, x) :: xs', (m, y) :: ys' =>
               if negb (str_eq n m) then false
               else if negb (nty_eq x y) then false else go xs' ys'
           | _, _ => true
           end) l ys = true <-> l = ys)).
  { induction 1 as [|[n x] l Hx Hl IH]; intros [|[m y] ys] L; cbn in L; try discriminate; [tauto|].
    cbn [snd] in Hx. specialize (Hx y). pose proof (str_eq_iff n m) as Hs.
    destruct (str_eq n m); cbn [negb].
    - destruct (nty_eq x y); cbn [negb].
      + rewrite IH by lia. assert (x = y) as -> by (apply Hx; auto).
        assert (n = m) as -> by (apply Hs; auto). split; congruence.
      + split; [discriminate|]. intros [= _ E _]. apply Hx in E. discriminate.
    - split; [discriminate|]. intros [= E _ _]. apply Hs in E. discriminate. }
  assert (L3 : forall l, Forall (fun p : str * DMV => forall b, dmv_eq (snd p) b = true <-> snd p = b) l ->
    forall ys, length l = length ys ->
    ((fix go (xs ys : list (str * DMV)) : bool :=
           match xs, ys with
           | (n, x) :: xs', (m, y) :: ys' =>
               if negb (str_eq n m && dmv_eq x y) then false else go xs' ys'
           | _, _ => true
           end) l ys = true <-> l = ys)).
  { induction 1 as [|[n x] l Hx Hl IH]; intros [|[m y] ys] L; cbn in L; try discriminate; [tauto|].
    cbn [snd] in Hx. specialize (Hx y). pose proof (str_eq_iff n m) as Hs.
    destruct (str_eq n m); cbn [negb andb].
    - destruct (dmv_eq x y); cbn [negb andb].
      + rewrite IH by lia. assert (x = y) as -> by (apply Hx; auto).
        assert (n = m) as -> by (apply Hs; auto). split; congruence.
      + split; [discriminate|]. intros [= _ E _]. apply Hx in E. discriminate.
    - split; [discriminate|]. intros [= E _ _]. apply Hs in E. discriminate. }
  apply schema_ind.
  - intros name ty IH [nb tb]. cbn. rewrite andb_true_iff, str_eq_iff, IH. split; [intros [-> ->]; auto|intros [= -> ->]; auto].
  - intros p [q| | | | | | | | |]; cbn; try (split; discriminate). rewrite prim_eqb_iff. split; congruence.
  - intros [q| | | | | | | | |]; cbn; try (split; discriminate). tauto.
  - intros n IH [q| | | | | | | | |]; cbn; try (split; discriminate). rewrite IH. split; congruence.
  - intros n IH [q| | | | | | | | |]; cbn; try (split; discriminate). rewrite IH. split; congruence.
  - intros n IH [q| | | | | | | | |]; cbn; try (split; discriminate). rewrite IH. split; congruence.
  - intros l IH [q| | | | | | | | |]; cbn; try (split; discriminate). len_case. rewrite L1 by auto. split; congruence.
  - intros l IH [q| | | | | | | | |]; cbn; try (split; discriminate). len_case. rewrite L1 by auto. split; congruence.
  - intros k v IHk IHv [q| | | | | | | | |]; cbn; try (split; discriminate).
    rewrite andb_true_iff, IHk, IHv. split; [intros [-> ->]; auto|intros [= -> ->]; auto].
  - intros l IH [q| | | | | | | | |]; cbn; try (split; discriminate). len_case. rewrite L2 by auto. split; congruence.
  - intros l IH [q| | | | | | | | |]; cbn; try (split; discriminate). len_case. rewrite L3 by auto. split; congruence.
  - intros [| | |]; cbn; try (split; discriminate). tauto.
  - intros n IH [| | |]; cbn; try (split; discriminate). rewrite IH. split; congruence.
  - intros l IH [| | |]; cbn; try (split; discriminate). len_case. rewrite L1 by auto. split; congruence.
  - intros l IH [| | |]; cbn; try (split; discriminate). len_case. rewrite L2 by auto. split; congruence.
Qed.

Lemma nty_eq_iff a b : nty_eq a b = true <-> a = b.
Proof. apply eq_iffs. Qed.
Lemma nty_eq_refl a : nty_eq a a = true.
Proof. now apply nty_eq_iff. Qed.
Lemma nty_eq_sym a b : nty_eq a b = nty_eq b a.
Proof. apply eq_true_iff_eq. rewrite !nty_eq_iff. split; congruence. Qed.

(** *** Pure version of the tables *)
Definition dadd (l : list NamedType) (ty : NamedType) : list NamedType :=
  if is_prim (nt_ty ty) || existsb (nty_eq ty) l then l else l ++ [ty].
Definition dadds (l tys : list NamedType) : list NamedType := fold_left dadd tys l.

Definition enc (MAX : nat) (l : list NamedType) : Table :=
  (map Some l ++ repeat None (MAX - length l), length l).

Lemma scan_gen test r : forall l2 l1 found,
  scan test (map Some (l1 ++ l2) ++ r) (length l1) (length l2) found
  = Done (found || existsb test l2).
Proof.
  induction l2; intros l1 found; cbn [scan length].
  - now rewrite orb_false_r.
  - destruct found; [reflexivity|].
    rewrite nth_error_app1 by (rewrite map_length, app_length; cbn; lia).
    rewrite map_app, nth_error_app2 by (rewrite map_length; lia).
    rewrite map_length, Nat.sub_diag. cbn [nth_error map].
    specialize (IHl2 (l1 ++ [a]) (test a)).
    rewrite <- app_assoc, app_length in IHl2. cbn [app length] in IHl2.
    rewrite Nat.add_1_r in IHl2. rewrite map_app in IHl2. cbn [map] in IHl2. rewrite IHl2. reflexivity.
Qed.

Lemma scan_enc test MAX l found :
  scan test (fst (enc MAX l)) 0 (length l) found = Done (found || existsb test l).
Proof. apply (scan_gen test _ l []). Qed.

Lemma arr_set_enc MAX l ty : length l < MAX ->
  arr_set (fst (enc MAX l)) (length l) ty = Done (fst (enc MAX (l ++ [ty]))).
Proof.
  unfold enc; cbn [fst]. rewrite app_length, map_app; cbn [length map].
  intros L. replace (MAX - length l) with (S (MAX - (length l + 1))) by lia.
  generalize (MAX - (length l + 1)) as r. intros r. clear L.
  cbn [repeat]. induction l; cbn [map app length arr_set]; [reflexivity|]. rewrite IHl. reflexivity.
Qed.

Lemma existsb_ext' {A} (f g : A -> bool) l : (forall x, f x = g x) -> existsb f l = existsb g l.
Proof. intros E. induction l; cbn; auto. now rewrite E, IHl. Qed.

Lemma dadd_len l ty : length l <= length (dadd l ty) <= length l + (if is_prim (nt_ty ty) then 0 else 1).
Proof. unfold dadd. destruct (is_prim _), (existsb _ _); cbn [orb]; rewrite ?app_length; cbn; lia. Qed.

Lemma add_unless_enc test MAX l ty :
  (forall e, test e = nty_eq ty e) -> length (dadd l ty) <= MAX ->
  add_unless test (enc MAX l) ty = Done (enc MAX (dadd l ty)).
Proof.
  intros Ht L. unfold add_unless. unfold enc at 1.
  pose proof (scan_enc test MAX l (is_prim (nt_ty ty))) as S. unfold enc in S; cbn [fst] in S. rewrite S.
  rewrite (existsb_ext' test (nty_eq ty)) by auto.
  unfold dadd in *. destruct (is_prim (nt_ty ty) || existsb (nty_eq ty) l); [reflexivity|].
  rewrite app_length in L; cbn in L.
  pose proof (arr_set_enc MAX l ty ltac:(lia)) as A. unfold enc in A; cbn [fst] in A. rewrite A.
  unfold enc. rewrite app_length. cbn. reflexivity.
Qed.

Lemma absorb_gen MAX r : forall l2 l1 t, length t + length l2 <= MAX ->
  absorb (map Some (l1 ++ l2) ++ r) (length l1) (length l2) (enc MAX t)
  = Done (enc MAX (dadds t l2)).
Proof.
  induction l2; intros l1 t L; cbn [absorb length dadds fold_left].
  - reflexivity.
  - rewrite nth_error_app1 by (rewrite map_length, app_length; cbn; lia).
    rewrite map_app, nth_error_app2 by (rewrite map_length; lia).
    rewrite map_length, Nat.sub_diag. cbn [nth_error map].
    pose proof (dadd_len t a). cbn [length] in L.
    rewrite add_unless_enc.
    2: { intros e. apply nty_eq_sym. }
    2: { destruct (is_prim (nt_ty a)); lia. }
    specialize (IHl2 (l1 ++ [a]) (dadd t a)).
    rewrite <- app_assoc, app_length in IHl2. cbn [app length] in IHl2.
    rewrite Nat.add_1_r in IHl2. rewrite map_app in IHl2. cbn [map] in IHl2. rewrite IHl2; auto.
    destruct (is_prim (nt_ty a)); lia.
Qed.
Lemma absorb_enc M MAX l t : length t + length l <= MAX ->
  absorb (fst (enc M l)) 0 (length l) (enc MAX t) = Done (enc MAX (dadds t l)).
Proof. apply (absorb_gen MAX _ l []). Qed.

Lemma dadds_len tys : forall l, length l <= length (dadds l tys) <= length l + length tys.
Proof.
  induction tys; intros l; cbn; [lia|]. unfold dadds in *. cbn.
  pose proof (dadd_len l a). specialize (IHtys (dadd l a)).
  destruct (is_prim (nt_ty a)); lia.
Qed.

(** Pure collection. *)
Fixpoint coll (n : NamedType) : list NamedType :=
  match n with NT name ty => dadd (coll_d ty) (NT name ty) end
with coll_d (d : DMT) : list NamedType :=
  match d with
  | DPrim _ | DUnitStruct => []
  | DOption nt | DNewtypeStruct nt | DSeq nt => coll nt
  | DTuple nts | DTupleStruct nts =>
      (fix go (l : list NamedType) (t : list NamedType) :=
         match l with [] => t | x :: l' => go l' (dadds t (coll x)) end) nts []
  | DMap key val => dadds (dadds [] (coll key)) (coll val)
  | DStruct nvals =>
      (fix go (l : list (str * NamedType)) (t : list NamedType) :=
         match l with [] => t | (_, x) :: l' => go l' (dadds t (coll x)) end) nvals []
  | DEnum nvars =>
      (fix go (l : list (str * DMV)) (t : list NamedType) :=
         match l with [] => t | (_, v) :: l' => go l' (coll_v v t) end) nvars []
  end
with coll_v (v : DMV) (t : list NamedType) {struct v} : list NamedType :=
  match v with
  | VUnit => t
  | VNewtype nt => dadd t nt
  | VTuple nts =>
      (fix go (l : list NamedType) (t : list NamedType) :=
         match l with [] => t | x :: l' => go l' (dadds t (coll x)) end) nts t
  | VStruct nvals =>
      (fix go (l : list (str * NamedType)) (t : list NamedType) :=
         match l with [] => t | (_, x) :: l' => go l' (dadds t (coll x)) end) nvals t
  end.

(** Names for the local loops. *)
Definition coll_list := fix go (l : list NamedType) (t : list NamedType) :=
         match l with [] => t | x :: l' => go l' (dadds t (coll x)) end.
Definition coll_vals := fix go (l : list (str * NamedType)) (t : list NamedType) :=
         match l with [] => t | (_, x) :: l' => go l' (dadds t (coll x)) end.
Definition coll_vars := fix go (l : list (str * DMV)) (t : list NamedType) :=
         match l with [] => t | (_, v) :: l' => go l' (coll_v v t) end.
Definition up_list := fix go (l : list NamedType) (uniq : nat) : nat :=
         match l with [] => uniq | x :: l' => go l' (uniq + nty_upper x) end.
Definition up_vals := fix go (l : list (str * NamedType)) (uniq : nat) : nat :=
         match l with [] => uniq | (_, x) :: l' => go l' (uniq + nty_upper x) end.
Definition up_vars := fix go (l : list (str * DMV)) (uniq : nat) : nat :=
         match l with [] => uniq | (_, x) :: l' => go l' (uniq + var_upper x) end.

Lemma up_list_acc l : forall a, up_list l a = a + up_list l 0.
Proof. induction l; cbn; intros; [lia|]. rewrite IHl, (IHl (nty_upper a)). lia. Qed.
Lemma up_vals_acc l : forall a, up_vals l a = a + up_vals l 0.
Proof. induction l as [|[n x] l]; cbn; intros; [lia|]. rewrite IHl, (IHl (nty_upper x)). lia. Qed.
Lemma up_vars_acc l : forall a, up_vars l a = a + up_vars l 0.
Proof. induction l as [|[n x] l]; cbn; intros; [lia|]. rewrite IHl, (IHl (var_upper x)). lia. Qed.

Section ChewOk.
  Variable MAX : nat.
  Definition chew_list := fix go (l : list NamedType) (t : Table) : outcome Table :=
           match l with
           | [] => Done t
           | x :: l' =>
             match chew_nty MAX x with
             | Panicked => Panicked
             | Done (arr, used) =>
               match absorb arr 0 used t with Panicked => Panicked | Done t' => go l' t' end
             end
           end.
  Definition chew_vals := fix go (l : list (str * NamedType)) (t : Table) : outcome Table :=
           match l with
           | [] => Done t
           | (_, x) :: l' =>
             match chew_nty MAX x with
             | Panicked => Panicked
             | Done (arr, used) =>
               match absorb arr 0 used t with Panicked => Panicked | Done t' => go l' t' end
             end
           end.
  Definition chew_vars := fix go (l : list (str * DMV)) (t : Table) : outcome Table :=
           match l with
           | [] => Done t
           | (_, v) :: l' => match chew_dmv MAX v t with Panicked => Panicked | Done t' => go l' t' end
           end.

  Definition okP (n : NamedType) : Prop :=
    nty_upper n <= MAX -> chew_nty MAX n = Done (enc MAX (coll n)) /\ length (coll n) <= nty_upper n.
  Definition okQ (d : DMT) : Prop :=
    dmt_upper d <= MAX -> chew_dmt MAX d = Done (enc MAX (coll_d d)) /\ length (coll_d d) <= dmt_upper d.
  Definition okR (v : DMV) : Prop :=
    forall t, length t + var_upper v <= MAX ->
      chew_dmv MAX v (enc MAX t) = Done (enc MAX (coll_v v t)) /\
      length (coll_v v t) <= length t + var_upper v.

  Lemma chew_list_ok l : Forall okP l -> forall t, length t + up_list l 0 <= MAX ->
    chew_list l (enc MAX t) = Done (enc MAX (coll_list l t)) /\
    length (coll_list l t) <= length t + up_list l 0.
  Proof.
    induction 1 as [|x l Hx Hl IH]; intros t; cbn [up_list coll_list chew_list].
    - intros _. split; [reflexivity|lia].
    - fold up_list. fold coll_list. fold chew_list. rewrite up_list_acc. intros L.
      destruct (Hx ltac:(lia)) as [E1 E2]. rewrite E1. unfold enc at 1.
      pose proof (absorb_enc MAX MAX (coll x) t ltac:(lia)) as A. unfold enc at 1 in A; cbn [fst] in A.
      rewrite A. pose proof (dadds_len (coll x) t).
      destruct (IH (dadds t (coll x)) ltac:(lia)) as [F1 F2]. split; [exact F1|lia].
  Qed.
  Lemma chew_vals_ok l : Forall (fun p => okP (snd p)) l -> forall t, length t + up_vals l 0 <= MAX ->
    chew_vals l (enc MAX t) = Done (enc MAX (coll_vals l t)) /\
    length (coll_vals l t) <= length t + up_vals l 0.
  Proof.
    induction 1 as [|[n x] l Hx Hl IH]; intros t; cbn [up_vals coll_vals chew_vals].
    - intros _. split; [reflexivity|lia].
    - fold up_vals. fold coll_vals. fold chew_vals. rewrite up_vals_acc. intros L.
      destruct (Hx ltac:(cbn; lia)) as [E1 E2]. cbn [snd] in E1, E2. rewrite E1. unfold enc at 1.
      pose proof (absorb_enc MAX MAX (coll x) t ltac:(lia)) as A. unfold enc at 1 in A; cbn [fst] in A.
      rewrite A. pose proof (dadds_len (coll x) t).
      destruct (IH (dadds t (coll x)) ltac:(lia)) as [F1 F2]. split; [exact F1|lia].
  Qed.
  Lemma chew_vars_ok l : Forall (fun p => okR (snd p)) l -> forall t, length t + up_vars l 0 <= MAX ->
    chew_vars l (enc MAX t) = Done (enc MAX (coll_vars l t)) /\
    length (coll_vars l t) <= length t + up_vars l 0.
  Proof.
    induction 1 as [|[n x] l Hx Hl IH]; intros t; cbn [up_vars coll_vars chew_vars].
    - intros _. split; [reflexivity|lia].
    - fold up_vars. fold coll_vars. fold chew_vars. rewrite up_vars_acc. intros L.
      destruct (Hx t ltac:(cbn; lia)) as [E1 E2]. cbn [snd] in E1, E2. rewrite E1.
      destruct (IH (coll_v x t) ltac:(lia)) as [F1 F2]. split; [exact F1|lia].
  Qed.

  Lemma blank_enc : (blank MAX, 0) = enc MAX [].
  Proof. unfold enc, blank; cbn. now rewrite Nat.sub_0_r. Qed.

  Lemma chew_nty_unfold name ty : chew_nty MAX (NT name ty) =
      match chew_dmt MAX ty with
      | Panicked => Panicked
      | Done t => add_unless (fun e => nty_eq (NT name ty) e) t (NT name ty)
      end.
  Proof. reflexivity. Qed.
  Lemma chew_map_unfold key val : chew_dmt MAX (DMap key val) =
        match chew_nty MAX key with
        | Panicked => Panicked
        | Done (arr, used) =>
          match absorb arr 0 used (blank MAX, 0) with
          | Panicked => Panicked
          | Done t =>
            match chew_nty MAX val with
            | Panicked => Panicked
            | Done (arr2, used2) => absorb arr2 0 used2 t
            end
          end
        end.
  Proof. reflexivity. Qed.
  Lemma coll_unfold name ty : coll (NT name ty) = dadd (coll_d ty) (NT name ty).
  Proof. reflexivity. Qed.

  Lemma chew_ok : (forall n, okP n) /\ (forall d, okQ d) /\ (forall v, okR v).
  Proof.
    apply schema_ind; unfold okP, okQ.
    - intros name ty IH L. cbn [nty_upper] in *.
      assert (L' : dmt_upper ty <= MAX) by (destruct (is_prim ty); lia).
      destruct (IH L') as [E1 E2]. rewrite chew_nty_unfold, coll_unfold, E1.
      pose proof (dadd_len (coll_d ty) (NT name ty)) as D. cbn [nt_ty] in D.
      rewrite add_unless_enc; [|auto|destruct (is_prim ty); lia].
      split; [reflexivity|destruct (is_prim ty); lia].
    - intros p _. cbn [chew_dmt coll_d]. rewrite blank_enc. split; [reflexivity|cbn; lia].
    - intros _. cbn [chew_dmt coll_d]. rewrite blank_enc. split; [reflexivity|cbn; lia].
    - intros n IH. exact IH.
    - intros n IH. exact IH.
    - intros n IH. exact IH.
    - intros l IH L.
      change (chew_dmt MAX (DTuple l)) with (chew_list l (blank MAX, 0)). rewrite blank_enc.
      apply (chew_list_ok l IH []). exact L.
    - intros l IH L.
      change (chew_dmt MAX (DTupleStruct l)) with (chew_list l (blank MAX, 0)). rewrite blank_enc.
      apply (chew_list_ok l IH []). exact L.
    - intros k v IHk IHv L. cbn [dmt_upper] in *. rewrite chew_map_unfold.
      change (coll_d (DMap k v)) with (dadds (dadds [] (coll k)) (coll v)).
      destruct (IHk ltac:(lia)) as [E1 E2]. destruct (IHv ltac:(lia)) as [F1 F2].
      rewrite E1, blank_enc. unfold enc at 1.
      pose proof (absorb_enc MAX MAX (coll k) [] ltac:(cbn; lia)) as A. unfold enc at 1 in A; cbn [fst] in A.
      rewrite A, F1. unfold enc at 1.
      pose proof (dadds_len (coll k) []) as D1. cbn [length] in D1.
      pose proof (absorb_enc MAX MAX (coll v) (dadds [] (coll k)) ltac:(lia)) as B. unfold enc at 1 in B; cbn [fst] in B.
      rewrite B. pose proof (dadds_len (coll v) (dadds [] (coll k))). split; [reflexivity|lia].
    - intros l IH L.
      change (chew_dmt MAX (DStruct l)) with (chew_vals l (blank MAX, 0)). rewrite blank_enc.
      apply (chew_vals_ok l IH []). exact L.
    - intros l IH L.
      change (chew_dmt MAX (DEnum l)) with (chew_vars l (blank MAX, 0)). rewrite blank_enc.
      apply (chew_vars_ok l IH []). exact L.
    - intros t L. cbn. split; [reflexivity|lia].
    - intros n IH t L. cbn [chew_dmv coll_v var_upper] in *.
      pose proof (dadd_len t n) as D.
      assert (U : (if is_prim (nt_ty n) then 0 else 1) <= nty_upper n).
      { destruct n as [name ty]; cbn [nt_ty nty_upper]. destruct (is_prim ty); lia. }
      rewrite add_unless_enc; [|intros; apply nty_eq_sym|lia]. split; [reflexivity|lia].
    - intros l IH t L. apply (chew_list_ok l IH t L).
    - intros l IH t L. apply (chew_vals_ok l IH t L).
  Qed.
End ChewOk.

Lemma crunch_take_enc l r : crunch_take (map Some l ++ r) (length l) = Done l.
Proof. induction l; cbn; [reflexivity|]. now rewrite IHl. Qed.

Lemma cruncher_enc MAX l : cruncher (fst (enc MAX l)) (length l) = Done l.
Proof.
  unfold cruncher, enc; cbn [fst]. rewrite crunch_take_enc.
  rewrite skipn_app, skipn_all2, map_length, Nat.sub_diag by (rewrite map_length; lia). cbn [skipn app].
  assert (E : forallb (fun o : option NamedType => match o with None => true | _ => false end)
                (repeat None (MAX - length l)) = true).
  { apply forallb_forall. intros x Hx. apply repeat_spec in Hx. now subst. }
  now rewrite E.
Qed.

Lemma unique_types_coll n : unique_types n = Done (coll n).
Proof.
  unfold unique_types.
  destruct (proj1 (chew_ok (nty_upper n)) n (le_n _)) as [E _]. rewrite E.
  apply cruncher_enc.
Qed.

(** *** What [dadd] does *)
Lemma existsb_nty ty l : existsb (nty_eq ty) l = true <-> In ty l.
Proof.
  rewrite existsb_exists. split.
  - intros (x & Hx & E). apply nty_eq_iff in E. now subst.
  - intros H. exists ty. split; auto. apply nty_eq_refl.
Qed.
Lemma is_prim_iff t : is_prim (nt_ty t) = true <-> primitive t.
Proof.
  unfold primitive. destruct (nt_ty t); cbn; split; try discriminate; try (intros [p E]; discriminate).
  - eauto. - auto.
Qed.

Lemma dadd_in l ty x : In x (dadd l ty) <-> In x l \/ (x = ty /\ ~ primitive ty).
Proof.
  unfold dadd. pose proof (is_prim_iff ty) as Hp. pose proof (existsb_nty ty l) as He.
  destruct (is_prim (nt_ty ty)); cbn [orb].
  - assert (primitive ty) by (apply Hp; auto). tauto.
  - assert (~ primitive ty) by (intros H; apply Hp in H; discriminate).
    destruct (existsb (nty_eq ty) l).
    + assert (In ty l) by (apply He; auto). split; [auto|intros [|[-> _]]; auto].
    + rewrite in_app_iff. cbn. split.
      * intros [|[->|[]]]; auto.
      * intros [|[-> _]]; auto.
Qed.

Lemma nodup_snoc {A} (l : list A) x : NoDup l -> ~ In x l -> NoDup (l ++ [x]).
Proof.
  induction 1; cbn; intros N; constructor.
  - intros [].
  - constructor.
  - rewrite in_app_iff. cbn. intros [|[->|[]]]; auto.
  - auto.
Qed.

Lemma dadd_nodup l ty : NoDup l -> NoDup (dadd l ty).
Proof.
  intros N. unfold dadd. pose proof (existsb_nty ty l) as He.
  destruct (is_prim (nt_ty ty)); cbn [orb]; auto.
  destruct (existsb (nty_eq ty) l); auto.
  apply nodup_snoc; auto. intros H. apply He in H. discriminate.
Qed.

Lemma dadds_in tys : forall l x, In x (dadds l tys) <-> In x l \/ (In x tys /\ ~ primitive x).
Proof.
  induction tys; intros l x; cbn; [tauto|].
  unfold dadds in *. cbn. rewrite IHtys, dadd_in. split.
  - intros [[|[-> ?]]|[? ?]]; auto.
  - intros [|[[->|] ?]]; auto.
Qed.
Lemma dadds_nodup tys : forall l, NoDup l -> NoDup (dadds l tys).
Proof. induction tys; intros l N; cbn; auto. unfold dadds in *; cbn. apply IHtys. now apply dadd_nodup. Qed.

(** *** What is collected *)
Definition below_visible (t : NamedType) (d : DMT) : Prop :=
  (exists c, child_plain c d /\ visible t c) \/ child_variant t d.

Lemma visible_inv t name d : visible t (NT name d) <-> t = NT name d \/ below_visible t d.
Proof.
  split.
  - inversion 1; subst; auto; right; [left; eauto|right; auto].
  - intros [->|[(c & H1 & H2)|H]]; [apply vis_here|eapply vis_below; eauto|apply vis_variant; auto].
Qed.

Lemma coll_list_in l : Forall (fun n => forall x, In x (coll n) <-> visible x n /\ ~ primitive x) l ->
  forall t x, In x (coll_list l t) <-> In x t \/ (exists c, In c l /\ visible x c) /\ ~ primitive x.
Proof.
  induction 1 as [|n l Hn Hl IH]; intros t x; cbn [coll_list]; fold coll_list.
  - split; auto. intros [|[(c & [] & _) _]]; auto.
  - rewrite IH, dadds_in, Hn. cbn [In]. split.
    + intros [[|[[? ?] ?]]|[(c & ? & ?) ?]]; auto; right; split; auto; eauto.
    + intros [|[(c & [->|] & ?) ?]]; auto. right. split; eauto.
Qed.
Lemma coll_vals_in l : Forall (fun p : str * NamedType => forall x, In x (coll (snd p)) <-> visible x (snd p) /\ ~ primitive x) l ->
  forall t x, In x (coll_vals l t) <-> In x t \/ (exists m c, In (m, c) l /\ visible x c) /\ ~ primitive x.
Proof.
  induction 1 as [|[m n] l Hn Hl IH]; intros t x; cbn [coll_vals]; fold coll_vals.
  - split; auto. intros [|[(m & c & [] & _) _]]; auto.
  - cbn [snd] in Hn. rewrite IH, dadds_in, Hn. cbn [In]. split.
    + intros [[|[[? ?] ?]]|[(c & ? & ? & ?) ?]]; auto; right; split; auto; eauto.
    + intros [|[(m' & c & [[= -> ->]|] & ?) ?]]; auto. right. split; eauto.
Qed.

Definition inR (v : DMV) : Prop := forall t x, In x (coll_v v t) <-> In x t \/
  ((exists n, v = VNewtype n /\ x = n) \/ (exists l c, v = VTuple l /\ In c l /\ visible x c)
   \/ (exists l m c, v = VStruct l /\ In (m, c) l /\ visible x c)) /\ ~ primitive x.

Lemma coll_vars_in l : Forall (fun p => inR (snd p)) l ->
  forall t x, In x (coll_vars l t) <-> In x t \/ below_visible x (DEnum l) /\ ~ primitive x.
Proof.
  intros H.
  assert (G : forall t x, In x (coll_vars l t) <-> In x t \/ (exists m v, In (m, v) l /\
     ((exists n, v = VNewtype n /\ x = n) \/ (exists l c, v = VTuple l /\ In c l /\ visible x c)
   \/ (exists l m c, v = VStruct l /\ In (m, c) l /\ visible x c))) /\ ~ primitive x).
  { induction H as [|[m v] l Hv Hl IH]; intros t x; cbn [coll_vars]; fold coll_vars.
    - split; auto. intros [|[(m & c & [] & _) _]]; auto.
    - cbn [snd] in Hv. rewrite IH, (Hv t x). cbn [In]. split.
      + intros [[|[? ?]]|[(m' & v' & ? & ?) ?]]; auto; right; split; auto.
        * exists m, v. auto.
        * exists m', v'. auto.
      + intros [|[(m' & v' & [[= <- <-]|] & ?) ?]]; auto. right. split; auto. exists m', v'. auto. }
  intros t x. rewrite G. unfold below_visible. split.
  - intros [|[(m & v & Hin & Hv) Hp]]; auto. right. split; auto.
    destruct Hv as [(n & -> & ->)|[(l' & c & -> & Hc & Hvis)|(l' & m' & c & -> & Hc & Hvis)]].
    + right. econstructor; eauto.
    + left. exists c. split; auto. eapply cp_enum_tuple; eauto.
    + left. exists c. split; auto. eapply cp_enum_struct; eauto.
  - intros [|[[(c & Hc & Hvis)|Hc] Hp]]; auto; right; split; auto.
    + inversion Hc; subst.
      * exists n, (VTuple l0). split; auto. right; left. eauto 7.
      * exists n, (VStruct l0). split; auto. right; right. eauto 8.
    + inversion Hc; subst. exists n, (VNewtype x). split; auto. left. eauto.
Qed.

Lemma coll_in_all :
  (forall n x, In x (coll n) <-> visible x n /\ ~ primitive x) /\
  (forall d x, In x (coll_d d) <-> below_visible x d /\ ~ primitive x) /\
  (forall v, inR v).
Proof.
  apply schema_ind; unfold below_visible.
  - intros name ty IH x. cbn [coll]. rewrite dadd_in, IH, visible_inv. unfold below_visible. split.
    + intros [[? ?]|[-> ?]]; auto.
    + intros [[->|] ?]; auto.
  - intros p x. cbn. split; [tauto|]. intros [[(c & H & _)|H] _]; inversion H.
  - intros x. cbn. split; [tauto|]. intros [[(c & H & _)|H] _]; inversion H.
  - intros n IH x. cbn [coll_d]. rewrite IH. split.
    + intros [? ?]. split; auto. left. exists n. split; auto. constructor.
    + intros [[(c & H & ?)|H] ?]; inversion H; subst; auto.
  - intros n IH x. cbn [coll_d]. rewrite IH. split.
    + intros [? ?]. split; auto. left. exists n. split; auto. constructor.
    + intros [[(c & H & ?)|H] ?]; inversion H; subst; auto.
  - intros n IH x. cbn [coll_d]. rewrite IH. split.
    + intros [? ?]. split; auto. left. exists n. split; auto. constructor.
    + intros [[(c & H & ?)|H] ?]; inversion H; subst; auto.
  - intros l IH x. pose proof (coll_list_in l IH [] x) as E. cbn [coll_d] in *. etransitivity; [apply E|]. split.
    + intros [[]|[(c & ? & ?) ?]]. split; auto. left. exists c. split; auto. now constructor.
    + intros [[(c & H & ?)|H] ?]; inversion H; subst. right. split; eauto.
  - intros l IH x. pose proof (coll_list_in l IH [] x) as E. cbn [coll_d] in *. etransitivity; [apply E|]. split.
    + intros [[]|[(c & ? & ?) ?]]. split; auto. left. exists c. split; auto. now constructor.
    + intros [[(c & H & ?)|H] ?]; inversion H; subst. right. split; eauto.
  - intros k v IHk IHv x. cbn [coll_d]. rewrite !dadds_in, IHk, IHv. cbn [In]. split.
    + intros [[[]|[[? ?] ?]]|[[? ?] ?]]; split; auto; left.
      * exists k. split; auto. constructor.
      * exists v. split; auto. constructor.
    + intros [[(c & H & ?)|H] ?]; inversion H; subst; auto.
  - intros l IH x. pose proof (coll_vals_in l IH [] x) as E. cbn [coll_d] in *. etransitivity; [apply E|]. split.
    + intros [[]|[(m & c & ? & ?) ?]]. split; auto. left. exists c. split; auto. econstructor; eauto.
    + intros [[(c & H & ?)|H] ?]; inversion H; subst. right. split; eauto.
  - intros l IH x. pose proof (coll_vars_in l IH [] x) as E. cbn [coll_d] in *. etransitivity; [apply E|].
    unfold below_visible. cbn [In]. tauto.
  - intros t x. cbn [coll_v]. split; auto. intros [|[[(n & E & _)|[(l & c & E & _)|(l & m & c & E & _)]] _]]; auto; discriminate.
  - intros n IH t x. cbn [coll_v]. rewrite dadd_in. split.
    + intros [|[-> ?]]; auto. right. split; auto. left. eauto.
    + intros [|[[(n' & [= <-] & ->)|[(l & c & E & _)|(l & m & c & E & _)]] ?]]; auto; discriminate.
  - intros l IH t x. cbn [coll_v]. etransitivity; [apply (coll_list_in l IH t x)|]. split.
    + intros [|[(c & ? & ?) ?]]; auto. right. split; auto. right; left. eauto.
    + intros [|[[(n' & E & _)|[(l' & c & [= <-] & ? & ?)|(l' & m & c & E & _)]] ?]]; auto; try discriminate.
      right. split; eauto.
  - intros l IH t x. cbn [coll_v]. etransitivity; [apply (coll_vals_in l IH t x)|]. split.
    + intros [|[(m & c & ? & ?) ?]]; auto. right. split; auto. right; right. eauto 6.
    + intros [|[[(n' & E & _)|[(l' & c & E & _)|(l' & m & c & [= <-] & ? & ?)]] ?]]; auto; try discriminate.
      right. split; eauto.
Qed.

Lemma coll_in n x : In x (coll n) <-> visible x n /\ ~ primitive x.
Proof. apply coll_in_all. Qed.

Lemma coll_list_nodup l : forall t, NoDup t -> NoDup (coll_list l t).
Proof. induction l; intros t N; cbn; auto. apply IHl. now apply dadds_nodup. Qed.
Lemma coll_vals_nodup l : forall t, NoDup t -> NoDup (coll_vals l t).
Proof. induction l as [|[]]; intros t N; cbn; auto. apply IHl. now apply dadds_nodup. Qed.
Lemma coll_v_nodup v t : NoDup t -> NoDup (coll_v v t).
Proof.
  destruct v; intros N; cbn; auto.
  - now apply dadd_nodup. - now apply coll_list_nodup. - now apply coll_vals_nodup.
Qed.
Lemma coll_vars_nodup l : forall t, NoDup t -> NoDup (coll_vars l t).
Proof. induction l as [|[]]; intros t N; cbn; auto. apply IHl. now apply coll_v_nodup. Qed.

Lemma coll_nodup_all : (forall n, NoDup (coll n)) /\ (forall d, NoDup (coll_d d)) /\ (forall v : DMV, True).
Proof.
  apply schema_ind; auto.
  - intros name ty IH. cbn. now apply dadd_nodup.
  - intros; constructor.
  - constructor.
  - intros l _. apply (coll_list_nodup l []). constructor.
  - intros l _. apply (coll_list_nodup l []). constructor.
  - intros k v Hk Hv. cbn. apply dadds_nodup, dadds_nodup. constructor.
  - intros l _. apply (coll_vals_nodup l []). constructor.
  - intros l _. apply (coll_vars_nodup l []). constructor.
Qed.
Lemma coll_nodup n : NoDup (coll n).
Proof. apply coll_nodup_all. Qed.

Lemma visible_occurs t s : visible t s -> occurs t s.
Proof.
  induction 1.
  - constructor.
  - econstructor; [left; eauto|auto].
  - econstructor; [right; eauto|constructor].
Qed.

Lemma occurs_trans a b c : occurs a b -> occurs b c -> occurs a c.
Proof. intros H1 H2. induction H2; auto. econstructor; eauto. Qed.

Lemma flat_complete t s : flat_variants s -> occurs t s -> ~ primitive t -> visible t s.
Proof.
  intros F H. revert F. induction H; intros F Hp.
  - constructor.
  - assert (F' : flat_variants c).
    { intros e He. apply F. eapply occurs_trans; [exact He|]. econstructor; eauto. constructor. }
    destruct H as [H|H].
    + eapply vis_below; eauto.
    + (* newtype payload: [t] is the payload itself or a primitive below it *)
      inversion H0; subst.
      * now apply vis_variant.
      * exfalso.
        assert (G : primitive c0).
        { apply (F (NT name d) ltac:(constructor) (NT name0 d0)); auto. }
        inversion H2; subst; [contradiction|].
        destruct G as [p G]. cbn in G. subst d1. destruct H3 as [H3|H3]; inversion H3.
Qed.

(** *** Merging *)
Lemma merge_list_enc MAX l : forall t, length t + length l <= MAX ->
  merge_list l (enc MAX t) = Done (enc MAX (dadds t l)).
Proof.
  induction l; intros t L; cbn [merge_list]; [reflexivity|].
  cbn [length] in L. pose proof (dadd_len t a).
  rewrite add_unless_enc by (try reflexivity; destruct (is_prim (nt_ty a)); lia).
  rewrite IHl by (destruct (is_prim (nt_ty a)); lia). reflexivity.
Qed.
Lemma dadds_app t a b : dadds t (a ++ b) = dadds (dadds t a) b.
Proof. apply fold_left_app. Qed.
Lemma merge_lists_enc MAX ls : forall t, length t + length (concat ls) <= MAX ->
  merge_lists ls (enc MAX t) = Done (enc MAX (dadds t (concat ls))).
Proof.
  induction ls; intros t L; cbn [merge_lists concat] in *; [reflexivity|].
  rewrite app_length in L. rewrite merge_list_enc by lia.
  pose proof (dadds_len a t). rewrite IHls by lia. now rewrite dadds_app.
Qed.
Lemma total_len_concat {T} (ls : list (list T)) : forall ct, total_len ls ct = ct + length (concat ls).
Proof. induction ls; intros ct; cbn; [lia|]. rewrite IHls, app_length. lia. Qed.

Lemma merge_types_eq ls : merge_types ls = Done (dadds [] (concat ls)).
Proof.
  unfold merge_types, merge_nty_lists. rewrite total_len_concat. cbn [Nat.add].
  rewrite blank_enc, merge_lists_enc by (cbn; lia).
  apply (cruncher_enc (length (concat ls))).
Qed.

Lemma dadds_first tys : forall l seen, (forall x, In x seen <-> In x l) ->
  exists r, dadds l tys = l ++ r /\ first_occ seen tys r.
Proof.
  induction tys; intros l seen Hs.
  - exists []. split; [now rewrite app_nil_r|constructor].
  - change (dadds l (a :: tys)) with (dadds (dadd l a) tys). unfold dadd.
    pose proof (is_prim_iff a) as Hp. pose proof (existsb_nty a l) as He.
    destruct (is_prim (nt_ty a)); cbn [orb].
    { destruct (IHtys l seen Hs) as (r & E & F). exists r. split; auto. apply fo_skip; auto.
      left. now apply Hp. }
    destruct (existsb (nty_eq a) l).
    { destruct (IHtys l seen Hs) as (r & E & F). exists r. split; auto. apply fo_skip; auto.
      right. apply Hs. now apply He. }
    destruct (IHtys (l ++ [a]) (a :: seen)) as (r & E & F).
    + intros x. rewrite in_app_iff. cbn. rewrite Hs. tauto.
    + exists (a :: r). split; [now rewrite E, <- app_assoc|]. apply fo_keep; auto.
      * intros H. apply Hp in H. discriminate.
      * rewrite Hs. intros H. apply He in H. discriminate.
Qed.

(** *** Concatenation *)
Lemma set_at_app {T} (a : list T) x y b : set_at (a ++ y :: b) (length a) x = Done (a ++ x :: b).
Proof. induction a; cbn; [reflexivity|]. now rewrite IHa. Qed.

Lemma combine_inner_ok {T} (init : T) l : forall a n, length l <= n ->
  combine_inner l (a ++ repeat init n) (length a) = Done (a ++ l ++ repeat init (n - length l), length a + length l).
Proof.
  induction l; intros p n L; cbn [combine_inner length app].
  - rewrite Nat.sub_0_r, Nat.add_0_r. reflexivity.
  - destruct n as [|n]; cbn in L; [lia|]. cbn [repeat]. rewrite set_at_app.
    specialize (IHl (p ++ [a]) n ltac:(lia)). rewrite <- app_assoc in IHl. cbn [app] in IHl.
    rewrite app_length in IHl; cbn [length] in IHl.
    rewrite IHl. rewrite <- app_assoc. cbn [app]. f_equal. f_equal. lia.
Qed.
Lemma combine_outer_ok {T} (init : T) ls : forall a n, length (concat ls) <= n ->
  combine_outer ls (a ++ repeat init n) (length a)
  = Done (a ++ concat ls ++ repeat init (n - length (concat ls)), length a + length (concat ls)).
Proof.
  induction ls; intros p n L; cbn [combine_outer concat].
  - cbn. rewrite Nat.sub_0_r, Nat.add_0_r. reflexivity.
  - cbn [concat] in L. rewrite app_length in *. rewrite combine_inner_ok by lia.
    specialize (IHls (p ++ a) (n - length a) ltac:(lia)).
    rewrite <- app_assoc in IHls. rewrite app_length in IHls.
    rewrite IHls. rewrite <- !app_assoc. f_equal. f_equal; [|lia].
    do 4 f_equal. lia.
Qed.
Lemma concat_arrays_eq {T} (init : T) ls : concat_arrays init ls = Done (concat ls).
Proof.
  unfold concat_arrays, combine_with_copy. rewrite total_len_concat. cbn [Nat.add].
  pose proof (combine_outer_ok init ls [] (length (concat ls)) (le_n _)) as E.
  cbn [app length Nat.add] in E. rewrite E, Nat.eqb_refl, Nat.sub_diag. cbn [repeat].
  now rewrite app_nil_r.
Qed.

Lemma merge_types_first ls : exists r, merge_types ls = Done r /\ first_occ [] (concat ls) r.
Proof.
  destruct (dadds_first (concat ls) [] [] ltac:(tauto)) as (r & E & F).
  exists r. split; auto. rewrite merge_types_eq, E. reflexivity.
Qed.
