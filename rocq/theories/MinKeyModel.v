(** Model of the compile-time key-length computation.
    Source: /repo/source/postcard-rpc/src/server/mod.rs:508-601 and
    server/dispatch_macro.rs:255-375.
    The [while] loops are transcribed with their indices; a loop over an index
    becomes a recursion on the number of iterations still possible (the list
    length), which is exactly when the Rust loop condition fails. *)
From Coq Require Import NArith List Bool Arith.
From Verif Require Import KeyModel HeaderModel.
Import ListNotations.

(** server/mod.rs:579-590 [one], [two], [four], [eight]: the compacted key read
    as a little-endian integer. *)
Definition one (k : Key8) : N := let 'K1 a := key1_from_key8 k in a.
Definition two (k : Key8) : N := let 'K2 a b := key2_from_key8 k in u16_from_le a b.
Definition four (k : Key8) : N :=
  let 'K4 a b c d := key4_from_key8 k in u32_from_le a b c d.
Definition u64_from_le (a b c d e f g h : N) : N :=
  (u32_from_le a b c d + 4294967296 * u32_from_le e f g h)%N.
Definition eight (k : Key8) : N :=
  let 'K8 a b c d e f g h := k in u64_from_le a b c d e f g h.

Section KeyCheck.
  Variable func : Key8 -> N.
  Variable lists : list (list Key8).

  (** server/mod.rs:545-554: [while y < xlist.len()]; [true] = 'dupe found. *)
  Fixpoint loop_y (akey : N) (xlist : list Key8) (y fuel : nat) : bool :=
    match fuel with
    | O => false
    | S fuel' =>
      if y <? length xlist then
        match nth_error xlist y with
        | None => false
        | Some ykey => if (akey =? func ykey)%N then true
                       else loop_y akey xlist (S y) fuel'
        end
      else false
    end.

  (** server/mod.rs:532-556: [let mut x = i; while x < lists.len()]. *)
  Fixpoint loop_x (akey : N) (i j x fuel : nat) : bool :=
    match fuel with
    | O => false
    | S fuel' =>
      if x <? length lists then
        match nth_error lists x with
        | None => false
        | Some xlist =>
          let y := if x =? i then j + 1 else 0 in
          if loop_y akey xlist y (length xlist) then true
          else loop_x akey i j (S x) fuel'
        end
      else false
    end.

  (** server/mod.rs:523-558: [while j < ilist.len()]. *)
  Fixpoint loop_j (ilist : list Key8) (i j fuel : nat) : bool :=
    match fuel with
    | O => false
    | S fuel' =>
      if j <? length ilist then
        match nth_error ilist j with
        | None => false
        | Some jkey =>
          let akey := func jkey in
          if loop_x akey i j i (length lists) then true
          else loop_j ilist i (S j) fuel'
        end
      else false
    end.

  (** server/mod.rs:519-560: ['dupe: while i < lists.len()]. *)
  Fixpoint loop_i (i fuel : nat) : bool :=
    match fuel with
    | O => false
    | S fuel' =>
      if i <? length lists then
        match nth_error lists i with
        | None => false
        | Some ilist =>
          if loop_j ilist i 0 (length ilist) then true
          else loop_i (S i) fuel'
        end
      else false
    end.

  (** server/mod.rs:516-561: [good] after the loops. *)
  Definition good : bool := negb (loop_i 0 (length lists)).
End KeyCheck.

(** server/mod.rs:578-601 [min_key_needed]; [None] is the compile-time panic. *)
Definition min_key_needed (lists : list (list Key8)) : option nat :=
  if good one lists then Some 1
  else if good two lists then Some 2
  else if good four lists then Some 4
  else if good eight lists then Some 8
  else None.

(** server/dispatch_macro.rs:331-338: inner loop of [a_is_subset_of_b]. *)
Fixpoint loop_matched (x : N) (b : list Key8) : bool :=
  match b with
  | [] => false
  | y :: tl => if (x =? eight y)%N then true else loop_matched x tl
  end.

(** server/dispatch_macro.rs:325-345 [a_is_subset_of_b]. *)
Fixpoint a_is_subset_of_b (a b : list Key8) : bool :=
  match a with
  | [] => true
  | x :: tl => if loop_matched (eight x) b then a_is_subset_of_b tl b else false
  end.

(** A row of an endpoint list: (path, request key, response key), lib.rs:456;
    a row of a topic list: (path, key), lib.rs:471.  Paths are byte strings. *)
Definition EpRow : Type := list N * Key8 * Key8.
Definition TpRow : Type := list N * Key8.
Definition ep_req (r : EpRow) : Key8 := snd (fst r).
Definition ep_resp (r : EpRow) : Key8 := snd r.

(** server/dispatch_macro.rs:348-351 [NEEDED_SZ_IN] (key lists of 260-291). *)
Definition needed_sz_in (eps : list EpRow) (tps_in : list TpRow) : option nat :=
  min_key_needed [map ep_req eps; map snd tps_in].

(** server/dispatch_macro.rs:352-355 [NEEDED_SZ_OUT]. *)
Definition needed_sz_out (eps : list EpRow) (tps_out : list TpRow) : option nat :=
  min_key_needed [map ep_resp eps; map snd tps_out].

(** server/dispatch_macro.rs:356-374 [NEEDED_SZ]: three assertions, then the
    larger of the two.  [hin], [hout], [htp] are the keys of the actual
    handlers (307-323).  [None] is a compile error. *)
Definition needed_sz (eps : list EpRow) (tps_in tps_out : list TpRow)
    (hin hout htp : list Key8) : option nat :=
  match needed_sz_in eps tps_in, needed_sz_out eps tps_out with
  | Some sin, Some sout =>
    if negb (a_is_subset_of_b hin (map ep_req eps)) then None
    else if negb (a_is_subset_of_b hout (map ep_resp eps)) then None
    else if negb (a_is_subset_of_b htp (map snd tps_in)) then None
    else Some (if sout <? sin then sin else sout)
  | _, _ => None
  end.

(** server/dispatch_macro.rs:423-431: the numeric size as a key kind
    ([None] is [unreachable!()]). *)
Definition kind_of_size (n : nat) : option VarKeyKind :=
  match n with
  | 1 => Some KK1
  | 2 => Some KK2
  | 4 => Some KK4
  | 8 => Some KK8
  | _ => None
  end.
