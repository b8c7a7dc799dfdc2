(** Type schemas and the const functions over them.
    Source: /repo/source/postcard-rpc/src/uniques.rs.  The schema types
    themselves ([NamedType], [DataModelType], ...) come from the postcard-schema
    crate; their constructors are those matched in uniques.rs:44-79 and 119-169.
    A schema is a compile-time constant made of [&'static] references, hence a
    finite tree.  Strings are byte strings. *)
From Coq Require Import NArith List Bool Arith.
From Verif Require Import KeyModel HeaderModel.
Import ListNotations.

Definition str : Type := list N.

(** The primitive constructors of [DataModelType] (uniques.rs:47-66). *)
Inductive PrimKind :=
  | PBool | PI8 | PU8 | PI16 | PI32 | PI64 | PI128 | PU16 | PU32 | PU64 | PU128
  | PUsize | PIsize | PF32 | PF64 | PChar | PString | PByteArray | PUnit | PSchema.

(** [NamedType], [DataModelType], [DataModelVariant]; a [NamedValue] is a pair of
    name and type, a [NamedVariant] a pair of name and variant. *)
Inductive NamedType :=
  | NT (name : str) (ty : DMT)
with DMT :=
  | DPrim (p : PrimKind)
  | DUnitStruct
  | DOption (nt : NamedType)
  | DNewtypeStruct (nt : NamedType)
  | DSeq (nt : NamedType)
  | DTuple (nts : list NamedType)
  | DTupleStruct (nts : list NamedType)
  | DMap (key val : NamedType)
  | DStruct (nvals : list (str * NamedType))
  | DEnum (nvars : list (str * DMV))
with DMV :=
  | VUnit
  | VNewtype (nt : NamedType)
  | VTuple (nts : list NamedType)
  | VStruct (nvals : list (str * NamedType)).

Definition nt_name (n : NamedType) : str := let 'NT a _ := n in a.
Definition nt_ty (n : NamedType) : DMT := let 'NT _ t := n in t.

(** uniques.rs:44-79 [is_prim] *)
Definition is_prim (d : DMT) : bool :=
  match d with DPrim _ => true | _ => false end.

Definition prim_eqb (a b : PrimKind) : bool :=
  match a, b with
  | PBool, PBool | PI8, PI8 | PU8, PU8 | PI16, PI16 | PI32, PI32 | PI64, PI64
  | PI128, PI128 | PU16, PU16 | PU32, PU32 | PU64, PU64 | PU128, PU128
  | PUsize, PUsize | PIsize, PIsize | PF32, PF32 | PF64, PF64 | PChar, PChar
  | PString, PString | PByteArray, PByteArray | PUnit, PUnit | PSchema, PSchema => true
  | _, _ => false
  end.

(** uniques.rs:82-96 [str_eq]: lengths first, then byte by byte. *)
Fixpoint bytes_eq (a b : list N) : bool :=
  match a, b with
  | x :: a', y :: b' => if (x =? y)%N then bytes_eq a' b' else false
  | _, _ => true
  end.
Definition str_eq (a b : str) : bool :=
  if length a =? length b then bytes_eq a b else false.

(** uniques.rs:99-235: [nty_eq], [ntys_eq], [dmt_eq], [var_eq], [vars_eq],
    [vals_eq], [dmv_eq].  The list loops (length test, then element by element)
    are the local [fix]es; the index loop over two equally long slices becomes a
    simultaneous recursion. *)
Fixpoint nty_eq (a b : NamedType) {struct a} : bool :=
  match a, b with NT na ta, NT nb tb => str_eq na nb && dmt_eq ta tb end
with dmt_eq (a b : DMT) {struct a} : bool :=
  match a, b with
  | DPrim p, DPrim q => prim_eqb p q
  | DUnitStruct, DUnitStruct => true
  | DOption x, DOption y => nty_eq x y
  | DNewtypeStruct x, DNewtypeStruct y => nty_eq x y
  | DSeq x, DSeq y => nty_eq x y
  | DTuple xs, DTuple ys =>
      if length xs =? length ys then
        (fix go (xs ys : list NamedType) : bool :=
           match xs, ys with
           | x :: xs', y :: ys' => if negb (nty_eq x y) then false else go xs' ys'
           | _, _ => true
           end) xs ys
      else false
  | DTupleStruct xs, DTupleStruct ys =>
      if length xs =? length ys then
        (fix go (xs ys : list NamedType) : bool :=
           match xs, ys with
           | x :: xs', y :: ys' => if negb (nty_eq x y) then false else go xs' ys'
           | _, _ => true
           end) xs ys
      else false
  | DMap ka va, DMap kb vb => nty_eq ka kb && nty_eq va vb
  | DStruct xs, DStruct ys =>
      if length xs =? length ys then
        (fix go (xs ys : list (str * NamedType)) : bool :=
           match xs, ys with
           | (n, x) :: xs', (m, y) :: ys' =>
               if negb (str_eq n m) then false
               else if negb (nty_eq x y) then false else go xs' ys'
           | _, _ => true
           end) xs ys
      else false
  | DEnum xs, DEnum ys =>
      if length xs =? length ys then
        (fix go (xs ys : list (str * DMV)) : bool :=
           match xs, ys with
           | (n, x) :: xs', (m, y) :: ys' =>
               if negb (str_eq n m && dmv_eq x y) then false else go xs' ys'
           | _, _ => true
           end) xs ys
      else false
  | _, _ => false
  end
with dmv_eq (a b : DMV) {struct a} : bool :=
  match a, b with
  | VUnit, VUnit => true
  | VNewtype x, VNewtype y => nty_eq x y
  | VTuple xs, VTuple ys =>
      if length xs =? length ys then
        (fix go (xs ys : list NamedType) : bool :=
           match xs, ys with
           | x :: xs', y :: ys' => if negb (nty_eq x y) then false else go xs' ys'
           | _, _ => true
           end) xs ys
      else false
  | VStruct xs, VStruct ys =>
      if length xs =? length ys then
        (fix go (xs ys : list (str * NamedType)) : bool :=
           match xs, ys with
           | (n, x) :: xs', (m, y) :: ys' =>
               if negb (str_eq n m) then false
               else if negb (nty_eq x y) then false else go xs' ys'
           | _, _ => true
           end) xs ys
      else false
  | _, _ => false
  end.

(** uniques.rs:238-345: the upper bounds. *)
Fixpoint nty_upper (n : NamedType) : nat :=
  match n with NT _ ty =>
    let child_ct := dmt_upper ty in
    if is_prim ty then child_ct else child_ct + 1
  end
with dmt_upper (d : DMT) : nat :=
  match d with
  | DPrim _ => 0
  | DUnitStruct => 0
  | DOption nt | DNewtypeStruct nt | DSeq nt => nty_upper nt
  | DTuple nts | DTupleStruct nts =>
      (fix go (l : list NamedType) (uniq : nat) : nat :=
         match l with [] => uniq | x :: l' => go l' (uniq + nty_upper x) end) nts 0
  | DMap key val => nty_upper key + nty_upper val
  | DStruct nvals =>
      (fix go (l : list (str * NamedType)) (uniq : nat) : nat :=
         match l with [] => uniq | (_, x) :: l' => go l' (uniq + nty_upper x) end) nvals 0
  | DEnum nvars =>
      (fix go (l : list (str * DMV)) (uniq : nat) : nat :=
         match l with [] => uniq | (_, x) :: l' => go l' (uniq + var_upper x) end) nvars 0
  end
with var_upper (v : DMV) : nat :=
  match v with
  | VUnit => 0
  | VNewtype nt => nty_upper nt
  | VTuple nts =>
      (fix go (l : list NamedType) (uniq : nat) : nat :=
         match l with [] => uniq | x :: l' => go l' (uniq + nty_upper x) end) nts 0
  | VStruct nvals =>
      (fix go (l : list (str * NamedType)) (uniq : nat) : nat :=
         match l with [] => uniq | (_, x) :: l' => go l' (uniq + nty_upper x) end) nvals 0
  end.

(** *** Fixed-size tables [([Option<&NamedType>; MAX], usize)] *)
Definition Table : Type := (list (option NamedType) * nat)%type.
Definition blank (MAX : nat) : list (option NamedType) := repeat None MAX.

(** [arr[i] = Some(v)]; an index out of bounds panics. *)
Fixpoint arr_set (arr : list (option NamedType)) (i : nat) (v : NamedType)
  : outcome (list (option NamedType)) :=
  match arr, i with
  | [], _ => Panicked
  | _ :: tl, O => Done (Some v :: tl)
  | x :: tl, S i' => match arr_set tl i' v with Done tl' => Done (x :: tl') | Panicked => Panicked end
  end.

(** [while !found && k < n { let Some(kty) = arr[k] else panic; found |= test kty; k += 1 }]
    (e.g. uniques.rs:370-376, 452-456).  [fuel] is [n - k]. *)
Fixpoint scan (test : NamedType -> bool) (arr : list (option NamedType)) (k fuel : nat)
    (found : bool) : outcome bool :=
  match fuel with
  | O => Done found
  | S fuel' =>
    if found then Done true
    else match nth_error arr k with
         | Some (Some kty) => scan test arr (S k) fuel' (test kty)
         | _ => Panicked
         end
  end.

(** The block repeated throughout uniques.rs (e.g. 448-460): add [ty] to the
    table unless it is primitive or already there. *)
Definition add_unless (test : NamedType -> bool) (t : Table) (ty : NamedType) : outcome Table :=
  let (out, outidx) := t in
  match scan test out 0 outidx (is_prim (nt_ty ty)) with
  | Panicked => Panicked
  | Done found =>
    if found then Done (out, outidx)
    else match arr_set out outidx ty with
         | Panicked => Panicked
         | Done out' => Done (out', outidx + 1)
         end
  end.

(** [while j < used { let Some(ty) = arr[j] else panic; ...; j += 1 }]
    (e.g. uniques.rs:446-462).  [fuel] is [used - j]. *)
Fixpoint absorb (arr : list (option NamedType)) (j fuel : nat) (t : Table) : outcome Table :=
  match fuel with
  | O => Done t
  | S fuel' =>
    match nth_error arr j with
    | Some (Some ty) =>
      match add_unless (fun kty => nty_eq kty ty) t ty with
      | Done t' => absorb arr (S j) fuel' t'
      | Panicked => Panicked
      end
    | _ => Panicked
    end
  end.

Section Chew.
  Variable MAX : nat.

  (** uniques.rs:360-383 [type_chewer_nty] and 398-627 [type_chewer_dmt].
      Note the [NewtypeVariant] arm (551-564): the payload type is added, its
      children are not visited. *)
  Fixpoint chew_nty (n : NamedType) : outcome Table :=
    match n with NT name ty =>
      match chew_dmt ty with
      | Panicked => Panicked
      | Done t => add_unless (fun e => nty_eq (NT name ty) e) t (NT name ty)
      end
    end
  with chew_dmt (d : DMT) : outcome Table :=
    match d with
    | DPrim _ => Done (blank MAX, 0)
    | DUnitStruct => Done (blank MAX, 0)
    | DOption nt | DNewtypeStruct nt | DSeq nt => chew_nty nt
    | DTuple nts | DTupleStruct nts =>
        (fix go (l : list NamedType) (t : Table) : outcome Table :=
           match l with
           | [] => Done t
           | x :: l' =>
             match chew_nty x with
             | Panicked => Panicked
             | Done (arr, used) =>
               match absorb arr 0 used t with Panicked => Panicked | Done t' => go l' t' end
             end
           end) nts (blank MAX, 0)
    | DMap key val =>
        match chew_nty key with
        | Panicked => Panicked
        | Done (arr, used) =>
          match absorb arr 0 used (blank MAX, 0) with
          | Panicked => Panicked
          | Done t =>
            match chew_nty val with
            | Panicked => Panicked
            | Done (arr2, used2) => absorb arr2 0 used2 t
            end
          end
        end
    | DStruct nvals =>
        (fix go (l : list (str * NamedType)) (t : Table) : outcome Table :=
           match l with
           | [] => Done t
           | (_, x) :: l' =>
             match chew_nty x with
             | Panicked => Panicked
             | Done (arr, used) =>
               match absorb arr 0 used t with Panicked => Panicked | Done t' => go l' t' end
             end
           end) nvals (blank MAX, 0)
    | DEnum nvars =>
        (fix go (l : list (str * DMV)) (t : Table) : outcome Table :=
           match l with
           | [] => Done t
           | (_, v) :: l' => match chew_dmv v t with Panicked => Panicked | Done t' => go l' t' end
           end) nvars (blank MAX, 0)
    end
  with chew_dmv (v : DMV) (t : Table) {struct v} : outcome Table :=
    match v with
    | VUnit => Done t
    | VNewtype nt => add_unless (fun kty => nty_eq kty nt) t nt
    | VTuple nts =>
        (fix go (l : list NamedType) (t : Table) : outcome Table :=
           match l with
           | [] => Done t
           | x :: l' =>
             match chew_nty x with
             | Panicked => Panicked
             | Done (arr, used) =>
               match absorb arr 0 used t with Panicked => Panicked | Done t' => go l' t' end
             end
           end) nts t
    | VStruct nvals =>
        (fix go (l : list (str * NamedType)) (t : Table) : outcome Table :=
           match l with
           | [] => Done t
           | (_, x) :: l' =>
             match chew_nty x with
             | Panicked => Panicked
             | Done (arr, used) =>
               match absorb arr 0 used t with Panicked => Panicked | Done t' => go l' t' end
             end
           end) nvals t
    end.
End Chew.

(** uniques.rs:643-647: the first [A] entries must be there. *)
Fixpoint crunch_take (opts : list (option NamedType)) (A : nat) {struct A} : outcome (list NamedType) :=
  match A with
  | O => Done []
  | S A' =>
    match opts with
    | Some ty :: tl => match crunch_take tl A' with Done r => Done (ty :: r) | Panicked => Panicked end
    | _ => Panicked
    end
  end.
(** uniques.rs:638-653 [cruncher] *)
Definition cruncher (opts : list (option NamedType)) (A : nat) : outcome (list NamedType) :=
  match crunch_take opts A with
  | Panicked => Panicked
  | Done r => if forallb (fun o => match o with None => true | _ => false end) (skipn A opts)
              then Done r else Panicked
  end.

(** uniques.rs:663-679 [unique_types!] *)
Definition unique_types (n : NamedType) : outcome (list NamedType) :=
  match chew_nty (nty_upper n) n with
  | Panicked => Panicked
  | Done (arr, used) => cruncher arr used
  end.

(** uniques.rs:688-719 [merge_nty_lists]: the inner loop over one list... *)
Fixpoint merge_list (l : list NamedType) (t : Table) : outcome Table :=
  match l with
  | [] => Done t
  | item :: tl =>
    match add_unless (fun oitem => nty_eq item oitem) t item with
    | Panicked => Panicked
    | Done t' => merge_list tl t'
    end
  end.
(** ... and the outer loop. *)
Fixpoint merge_lists (ls : list (list NamedType)) (t : Table) : outcome Table :=
  match ls with
  | [] => Done t
  | l :: tl => match merge_list l t with Panicked => Panicked | Done t' => merge_lists tl t' end
  end.
Definition merge_nty_lists (M : nat) (ls : list (list NamedType)) : outcome Table :=
  merge_lists ls (blank M, 0).

(** uniques.rs:726-734 [total_len] *)
Fixpoint total_len {T} (arrs : list (list T)) (ct : nat) : nat :=
  match arrs with [] => ct | a :: tl => total_len tl (ct + length a) end.

(** uniques.rs:760-777 [merge_unique_types!] applied to already computed lists;
    also macros.rs and dispatch_macro.rs:407-419 (DeviceMap.types). *)
Definition merge_types (ls : list (list NamedType)) : outcome (list NamedType) :=
  match merge_nty_lists (total_len ls 0) ls with
  | Panicked => Panicked
  | Done (arr, used) => cruncher arr used
  end.

(** [array[i] = v] for a general element type. *)
Fixpoint set_at {T} (arr : list T) (i : nat) (v : T) : outcome (list T) :=
  match arr, i with
  | [], _ => Panicked
  | _ :: tl, O => Done (v :: tl)
  | x :: tl, S i' => match set_at tl i' v with Done tl' => Done (x :: tl') | Panicked => Panicked end
  end.
(** uniques.rs:743-748: inner loop of [combine_with_copy]. *)
Fixpoint combine_inner {T} (l : list T) (out : list T) (outidx : nat) : outcome (list T * nat) :=
  match l with
  | [] => Done (out, outidx)
  | x :: tl =>
    match set_at out outidx x with
    | Panicked => Panicked
    | Done out' => combine_inner tl out' (outidx + 1)
    end
  end.
Fixpoint combine_outer {T} (ls : list (list T)) (out : list T) (outidx : nat)
  : outcome (list T * nat) :=
  match ls with
  | [] => Done (out, outidx)
  | l :: tl =>
    match combine_inner l out outidx with
    | Panicked => Panicked
    | Done (out', i') => combine_outer tl out' i'
    end
  end.
(** uniques.rs:737-754 [combine_with_copy] *)
Definition combine_with_copy {T} (n : nat) (arrs : list (list T)) (init : T) : outcome (list T) :=
  match combine_outer arrs (repeat init n) 0 with
  | Panicked => Panicked
  | Done (out, outidx) => if outidx =? n then Done out else Panicked
  end.

(** macros.rs:388-404 [concat_arrays!] *)
Definition concat_arrays {T} (init : T) (arrs : list (list T)) : outcome (list T) :=
  combine_with_copy (total_len arrs 0) arrs init.
