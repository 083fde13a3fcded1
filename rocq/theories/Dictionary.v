(** Model of [Dictionary] (/repo/dictionary.h).  The values are a list of
    floats; an iterator is an index.  Reading at an index outside the list is
    [UB].  The parameter [strict] selects whether merely forming a pointer
    beyond one-past-the-end counts as undefined behaviour (it does according
    to the C++ standard, although no machine traps on it). *)
From Verif Require Import Base Floats.

Section Search.
Variable strict : bool.
Variable vals : list f32.
Variable val : f32.
Let n := length vals.

(** [base + i] *)
Definition ptr (i : nat) : res nat :=
  if strict && (n <? i)%nat then UB else Ok i.

(** dictionary.h:87-93, one iteration of the branchless search:
    [idx = min(step, n-1); probe = it + idx;
     if (probe < base + n && *probe < val) it = probe;] *)
Definition lb_probe (step it : nat) : res nat :=
  let idx := Nat.min step (n - 1) in
  do probe <- ptr (it + idx);
  if (probe <? n)%nat then
    do x <- rd vals probe;
    Ok (if Bltb x val then probe else it)
  else Ok it.

(** dictionary.h:56-64, 85-93: [while (step != 0) { ...; step >>= 1; }].
    [fuel] bounds the number of iterations; exhausting it gives [UB], so a
    theorem concluding [Ok] shows that it does not happen. *)
Fixpoint lb_loop (fuel step it : nat) : res nat :=
  match fuel with
  | O => UB
  | S fuel' =>
      if (step =? 0)%nat then Ok it
      else do it' <- lb_probe step it; lb_loop fuel' (Nat.div2 step) it'
  end.

(** dictionary.h:66, 95: [return (it < base + n && *it < val) ? it + 1 : it;] *)
Definition lb_final (it : nat) : res nat :=
  if (it <? n)%nat then
    do x <- rd vals it;
    if Bltb x val then ptr (it + 1) else Ok it
  else Ok it.

(** dictionary.h:191-202: largest power of two <= n (undefined for n = 0). *)
Definition bit_floor (k : nat) : res nat :=
  if (k =? 0)%nat then UB else Ok (2 ^ Nat.log2 k)%nat.

(** dictionary.h:74-96 *)
Definition lower_bound_branchless : res nat :=
  do step <- bit_floor n;
  do it <- lb_loop (S n) step 0;
  lb_final it.

(** dictionary.h:39-67: first iteration unrolled *)
Definition lower_bound_branchless_two_minimum : res nat :=
  do step <- bit_floor n;
  do it <- lb_probe step 0;
  do it' <- lb_loop (S n) (Nat.div2 step) it;
  lb_final it'.

(** dictionary.h:31-33 *)
Definition lower_bound : res nat := lower_bound_branchless_two_minimum.

(** dictionary.h:114-120, 137-143: [while (p + 1 != q) {...}] *)
Fixpoint bis_loop (fuel p q : nat) : res (nat * nat) :=
  match fuel with
  | O => UB
  | S fuel' =>
      if (p + 1 =? q)%nat then Ok (p, q)
      else let m := Nat.div (p + q) 2 in
           do x <- rd vals m;
           if Bleb x val then bis_loop fuel' m q else bis_loop fuel' p m
  end.

(** dictionary.h:121, 144, 165: [(_values[p] < val) ? &_values[q] : &_values[p]] *)
Definition bis_final (pq : nat * nat) : res nat :=
  let (p, q) := pq in
  do x <- rd vals p;
  Ok (if Bltb x val then q else p).

(** dictionary.h:134-145 *)
Definition lower_bound_one_minimum : res nat :=
  do pq <- bis_loop (S n) 0 n; bis_final pq.

(** dictionary.h:106-122 *)
Definition lower_bound_two_minimum : res nat :=
  let m := Nat.div (0 + n) 2 in
  do x <- rd vals m;
  do pq <- (if Bleb x val then bis_loop (S n) m n else bis_loop (S n) 0 m);
  bis_final pq.

(** dictionary.h:153-166; [m = p + (q - p) / 2] *)
Fixpoint slow_loop (fuel p q : nat) : res (nat * nat) :=
  match fuel with
  | O => UB
  | S fuel' =>
      if (p + 1 =? q)%nat then Ok (p, q)
      else let m := (p + Nat.div (q - p) 2)%nat in
           do x <- rd vals m;
           if Bleb x val then slow_loop fuel' m q else slow_loop fuel' p m
  end.

Definition lower_bound_slow : res nat :=
  do pq <- slow_loop (S n) 0 n; bis_final pq.

End Search.

(** dictionary.h:168-171.  The [assert(iter > begin())] is compiled out
    ([-DNDEBUG], CMakeLists.txt:17). *)
Definition symbol (iter : nat) : nat := iter.

(** the assert of dictionary.h:169 *)
Definition symbol_assert (iter : nat) : bool := (0 <? iter)%nat.
