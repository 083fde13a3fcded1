(** Model of [aocommon::UVector] (/repo/uvector.h). *)
From Verif Require Import Base.

Section UVector.
Context {A : Type}.

(** The allocation [_begin .. _endOfStorage) and the number of elements
    [_end - _begin] (uvector.h:117).  A cell is [None] while it is not
    initialised.  A null vector is the one with an empty allocation.
    Simplification: allocation never fails and the allocator is stateless
    ([std::allocator], the only one used in /repo). *)
Record uvector := UV { store : list (option A); count : nat }.

(** Alloc::allocate: uninitialised cells *)
Definition allocate (n : nat) : list (option A) := repeat None n.

(** uvector.h:123 *)
Definition uv_empty : uvector := UV [] 0.
(** uvector.h:132 *)
Definition uv_make (n : nat) : uvector := UV (allocate n) n.
(** uvector.h:141-144 *)
Definition uv_make_fill (n : nat) (x : A) : res uvector :=
  do s <- wrs (allocate n) 0 (repeat (Some x) n); Ok (UV s n).
(** uvector.h:152-155 with construct_from_range 799-812 (forward iterators),
    and initializer lists 216-229 *)
Definition uv_make_range (xs : list A) : res uvector :=
  do s <- wrs (allocate (length xs)) 0 (map Some xs); Ok (UV s (length xs)).

(** uvector.h:277, 343 *)
Definition size (v : uvector) : nat := count v.
Definition capacity (v : uvector) : nat := length (store v).

(** the cells [_begin .. _end) *)
Definition cells (v : uvector) : res (list (option A)) := rds (store v) 0 (count v).

(** uvector.h:162-169 copy construction: allocates exactly size() elements *)
Definition uv_copy (v : uvector) : res uvector :=
  do c <- cells v; do s <- wrs (allocate (size v)) 0 c; Ok (UV s (size v)).
(** uvector.h:186-194 move construction; second component is the moved-from
    vector *)
Definition uv_move (v : uvector) : uvector * uvector := (v, uv_empty).

(** uvector.h:931-942 operator=( const&) *)
Definition uv_assign (dst src : uvector) : res uvector :=
  let n := size src in
  let dst' := if (capacity dst <? n)%nat then UV (allocate n) n else dst in
  do c <- rds (store src) 0 n;
  do s <- wrs (store dst') 0 c;
  Ok (UV s (count dst')).
(** uvector.h:987-997 operator=(&&) (std::allocator propagates on move) *)
Definition uv_assign_move (dst src : uvector) : uvector * uvector := (src, uv_empty).
(** uvector.h:1007-1011 *)
Definition uv_swap (a b : uvector) : uvector * uvector := (b, a).

(** uvector.h:901-903 *)
Definition enlarge_size (v : uvector) (extra : nat) : nat := (size v + Nat.max (size v) extra)%nat.

(** reallocation as done by [enlarge] (905-912), reserve (357-367) and resize:
    the elements move to the front of a new allocation *)
Definition realloc (v : uvector) (n : nat) : res uvector :=
  do c <- cells v; do s <- wrs (allocate n) 0 c; Ok (UV s (count v)).

(** uvector.h:294-304 *)
Definition uv_resize (v : uvector) (n : nat) : res uvector :=
  do v' <- (if (capacity v <? n)%nat then realloc v (enlarge_size v n) else Ok v);
  Ok (UV (store v') n).
(** uvector.h:315-326; [x] must not refer to an element of the vector *)
Definition uv_resize_fill (v : uvector) (n : nat) (x : A) : res uvector :=
  let old := size v in
  do v' <- (if (capacity v <? n)%nat then realloc v n else Ok v);
  if (old <? n)%nat then
    do s <- wrs (store v') old (repeat (Some x) (n - old)); Ok (UV s n)
  else Ok (UV (store v') n).
(** uvector.h:357-367 *)
Definition uv_reserve (v : uvector) (n : nat) : res uvector :=
  if (capacity v <? n)%nat then realloc v n else Ok v.
(** uvector.h:378-393 *)
Definition uv_shrink (v : uvector) : res uvector :=
  if (size v =? 0)%nat then Ok uv_empty
  else if (size v <? capacity v)%nat then realloc v (size v) else Ok v.

(** operator[] (396, 399): unchecked against the size; anything inside the
    allocation can be reached *)
Definition uv_get (v : uvector) (i : nat) : res (option A) := rd (store v) i.
Definition uv_set (v : uvector) (i : nat) (x : A) : res uvector :=
  do s <- wr (store v) i (Some x); Ok (UV s (count v)).
(** at() (405-417, 897-899) *)
Definition uv_at (v : uvector) (i : nat) : res (option A) :=
  if (size v <=? i)%nat then Throw else uv_get v i.

(** The reference argument of push_back: an object outside the vector or an
    element of the vector itself. *)
Inductive arg := Outside (x : A) | Own (i : nat).
Definition arg_value (v : uvector) (a : arg) : res (option A) :=
  match a with Outside x => Ok (Some x) | Own i => rd (store v) i end.
(** after the old allocation has been released, references into it dangle *)
Definition arg_after (v : uvector) (reallocated : bool) (a : arg) : res (option A) :=
  match a with
  | Outside x => Ok (Some x)
  | Own i => if reallocated then UB else rd (store v) i
  end.

(** uvector.h:489-493 *)
Definition uv_push_back (v : uvector) (a : arg) : res uvector :=
  let full := (count v =? capacity v)%nat in
  do v' <- (if full then realloc v (enlarge_size v 1) else Ok v);
  do x <- arg_after v full a;
  do s <- wr (store v') (count v') x;
  Ok (UV s (S (count v'))).
(** uvector.h:510; decrementing _end below _begin is undefined *)
Definition uv_pop_back (v : uvector) : res uvector :=
  match count v with O => UB | S n => Ok (UV (store v) n) end.

(** uvector.h:1058-1071 push_back(first, last) and 753-762: the elements are
    written one after the other *)
Definition uv_push_range (v : uvector) (xs : list A) : res uvector :=
  do v' <- (if (capacity v - size v <? length xs)%nat
            then realloc v (enlarge_size v (length xs)) else Ok v);
  do s <- wrs (store v') (count v') (map Some xs);
  Ok (UV s (count v' + length xs)).

(** enlarge_for_insert (914-922) *)
Definition enlarge_for_insert (v : uvector) (newSize pos n : nat) : res uvector :=
  do c1 <- rds (store v) 0 pos;
  do c2 <- rds (store v) pos (count v - pos);
  do s1 <- wrs (allocate newSize) 0 c1;
  do s2 <- wrs s1 (pos + n) c2;
  Ok (UV s2 (count v + n)).
(** std::move_backward(position, _end, _end + n); _end += n *)
Definition shift_right (v : uvector) (pos n : nat) : res uvector :=
  do c <- rds (store v) pos (count v - pos);
  do s <- wrs (store v) (pos + n) c;
  Ok (UV s (count v + n)).

(** insert(position, first, last) (870-895), insert(position, n, val) (546-558)
    and insert(position, initlist) (608-625); [pos] is [position - _begin],
    which must lie in the vector *)
Definition uv_insert (v : uvector) (pos : nat) (xs : list A) : res uvector :=
  if (count v <? pos)%nat then UB else
  do v' <- (if (capacity v <? size v + length xs)%nat
            then enlarge_for_insert v (enlarge_size v (length xs)) pos (length xs)
            else shift_right v pos (length xs));
  do s <- wrs (store v') pos (map Some xs);
  Ok (UV s (count v')).
(** insert_uninitialized (728-738) *)
Definition uv_insert_uninit (v : uvector) (pos n : nat) : res uvector :=
  if (count v <? pos)%nat then UB else
  if (capacity v <? size v + n)%nat
  then enlarge_for_insert v (enlarge_size v n) pos n
  else shift_right v pos n.

(** uvector.h:646-650 [erase(first, last)]; 633-637 is the case [last = first + 1] *)
Definition uv_erase (v : uvector) (first last : nat) : res uvector :=
  if ((last <? first) || (count v <? last))%nat then UB else
  do c <- rds (store v) last (count v - last);
  do s <- wrs (store v) first c;
  Ok (UV s (count v - (last - first))).
(** uvector.h:668 *)
Definition uv_clear (v : uvector) : uvector := UV (store v) 0.

(** assign(first, last) (833-849), assign(n, val) (452-461) and
    assign(initlist) (468-482); the range must not lie in the vector itself *)
Definition uv_assign_range (v : uvector) (xs : list A) : res uvector :=
  let n := length xs in
  let st := if (capacity v <? n)%nat then allocate n else store v in
  do s <- wrs st 0 (map Some xs);
  Ok (UV s n).

End UVector.
Arguments uvector : clear implicits.
