(** Specification vocabulary for the threaded column. *)
From Verif Require Import Base TimeBlockBuffer Column.
Local Open Scope N_scope.

(** [coded e rp na b r d v]: [v] is [d] after zero or more passes through the
    codec, each time as row [r] of the encoded block [b]. *)
Inductive coded (e : env) (rp : N) (na : nat) (b : N) (r : nat) (d : list (data e)) : list (data e) -> Prop :=
| coded_id : coded e rp na b r d d
| coded_pass u v x y rw : coded e rp na b r d u -> nth_error x r = Some rw -> visibilities rw = u ->
    enc e rp na x y -> nth_error (dec e rp na b y) r = Some v -> coded e rp na b r d v.

(** Decoding gives back at least the rows that were encoded. *)
Definition rows_kept (e : env) : Prop :=
  forall rp na b x y, enc e rp na x y -> (length x <= length (dec e rp na b y))%nat.

(** The blocks that encoding threads are working on. *)
Definition busy {A} (ws : list (wpc A)) : list N :=
  concat (map (fun w => match w with WPicked b _ => [b] | WWritten b => [b] | _ => [] end) ws).

(** Whatever the schedule, the call in progress ends: after finitely many steps
    of the calling thread and the encoding threads it is done (or an exception or
    undefined behaviour ended the run), and until then some thread can run. *)
Inductive finishes {e} (s : state e) : Prop :=
| fin_now : code s = [] \/ status s <> Running -> finishes s
| fin_step : (exists s', istep s s') -> (forall s', istep s s' -> finishes s') -> finishes s.

(** Rows with the same time, field and data description. *)
Definition same_keys (e : env) (r r' : N) : Prop := time e r = time e r' /\ field e r = field e r' /\ ddid e r = ddid e r'.

(** The first time block consists of rows 0 .. n-1. *)
Definition first_block (e : env) (n : N) : Prop := 0 < n /\ (forall r, r < n -> same_keys e r 0) /\ ~ same_keys e n 0.

(** One more than the largest antenna index of rows 0 .. n-1. *)
Definition antenna_count (e : env) (n : N) (na : nat) : Prop :=
  (forall r, r < n -> (fst (ants e r) < na)%nat /\ (snd (ants e r) < na)%nat) /\
  (exists r, r < n /\ (na = S (fst (ants e r)) \/ na = S (snd (ants e r)))).

(** A new column whose rows 0, 1, ... k-1 are written in order, row [r] with [D r],
    after which it may be closed.  Any schedule; steps of other columns included.
    If [o], another column of the table may find the block size first, and with it
    the number of antennas. *)
Inductive in_order {e} (o : Prop) (D : N -> list (data e)) : N -> state e -> Prop :=
| io_new : in_order o D 0 (fresh e)
| io_put k s : in_order o D k s -> status s = Running -> code s = [] -> closed s = false -> k < 2 ^ 32 ->
    in_order o D (k + 1) (set_code s (call_code (Put k (D k))))
| io_close k s : in_order o D k s -> status s = Running -> code s = [] -> closed s = false ->
    in_order o D k (set_code s (call_code Shutdown))
| io_step k s s' : in_order o D k s -> step s s' -> code s <> [] \/ code s' = [] -> in_order o D k s'
| io_other k n na s : in_order o D k s -> status s = Running -> code s = [] -> closed s = false -> o -> rpb s = 0 ->
    k <= n -> n < 2 ^ 32 -> first_block e n -> antenna_count e n na -> in_order o D k (set_code s (call_code (OtherInit n na))).

(** the calls such a run may make *)
Definition next_call {e} (o : Prop) (D : N -> list (data e)) (k : N) (s : state e) (a : call e) : Prop :=
  (a = Put k (D k) /\ k < 2 ^ 32) \/ a = Shutdown \/
  (o /\ rpb s = 0 /\ exists n na, a = OtherInit n na /\ k <= n /\ n < 2 ^ 32 /\ first_block e n /\ antenna_count e n na).

(** The same when the table has no other column. *)
Inductive in_order_alone {e} (D : N -> list (data e)) : N -> state e -> Prop :=
| ioa_new : in_order_alone D 0 (fresh e)
| ioa_put k s : in_order_alone D k s -> status s = Running -> code s = [] -> closed s = false -> k < 2 ^ 32 ->
    in_order_alone D (k + 1) (set_code s (call_code (Put k (D k))))
| ioa_close k s : in_order_alone D k s -> status s = Running -> code s = [] -> closed s = false ->
    in_order_alone D k (set_code s (call_code Shutdown))
| ioa_step k s s' : in_order_alone D k s -> step s s' -> code s <> [] \/ code s' = [] -> istep s s' \/ nblk s' = nblk s -> in_order_alone D k s'.

(** Block [b] of [n] rows, of which the table has those below [k]: its rows carry the
    antennas of the table and [nSamp] samples, and row [r] of the table has what was
    put.  Other rows have any contents. *)
Definition block_of (e : env) (D : N -> list (data e)) (k n b : N) (x : tbb (data e)) : Prop :=
  N.of_nat (length x) <= n /\
  (forall i row, nth_error x i = Some row ->
     (antenna1 row, antenna2 row) = ants e (b * n + N.of_nat i) /\ length (visibilities row) = nSamp e) /\
  (forall r, r < k -> r / n = b -> exists row, nth_error x (N.to_nat (r mod n)) = Some row /\ visibilities row = firstn (nSamp e) (D r)).

(** Every row of the block is one of the table, with what was put. *)
Definition only_put (e : env) (D : N -> list (data e)) (n b : N) (x : tbb (data e)) : Prop :=
  forall i row, nth_error x i = Some row -> visibilities row = firstn (nSamp e) (D (b * n + N.of_nat i)).

(** What was put and nothing else. *)
Definition exact_block (e : env) (D : N -> list (data e)) (k n b : N) (x : tbb (data e)) : Prop :=
  block_of e D k n b x /\ N.of_nat (length x) = N.min n (k - b * n).

(** An opened column of which rows, all satisfying [ok], are only read. *)
Inductive reading {e} (ok : N -> Prop) (s0 : state e) : state e -> Prop :=
| rd_open : reading ok s0 s0
| rd_get s row : reading ok s0 s -> status s = Running -> code s = [] -> closed s = false -> row < 2 ^ 32 -> ok row ->
    reading ok s0 (set_code s (call_code (Get row)))
| rd_close s : reading ok s0 s -> status s = Running -> code s = [] -> closed s = false -> reading ok s0 (set_code s (call_code Shutdown))
| rd_step s s' : reading ok s0 s -> step s s' -> code s <> [] \/ code s' = [] -> reading ok s0 s'.
