(** Specification vocabulary: data races. *)
From Verif Require Import Base TimeBlockBuffer Floats BytePacker File StMan TimeBlockEncoders Block Column ColumnSpec StoredColumn System SystemSpec Accesses.
Local Open Scope N_scope.

(** Two accesses to the same location, one of which writes, without a mutex that both hold. *)
Definition conflict (a b : access) : Prop :=
  a_loc a = a_loc b /\ (a_write a = true \/ a_write b = true) /\ forall m, In m (a_locks a) -> ~ In m (a_locks b).

Definition no_conflict (l l' : list access) : Prop := forall a b, In a l -> In b l' -> ~ conflict a b.

Section race.
Context {cfg : nat -> coldef} {T : table} {nt : nat}.
Notation sys := (sys cfg T nt).

(** the calling thread; encoding thread [k] of column [i] *)
Inductive thread := Caller | Encoder (i k : nat).

(** [a] is one of the next things that a thread does. *)
Inductive pending (S : sys) : thread -> access -> Prop :=
| pe_caller i x c a : (i < ncol cfg T nt S)%nat -> code (cst cfg T nt S i) = x :: c ->
    In a (main_acc i (i =? active cfg T nt S)%nat x) -> pending S Caller a
| pe_encoder i k w a : (i < ncol cfg T nt S)%nat -> nth_error (workers (cst cfg T nt S i)) k = Some w ->
    In a (worker_acc i w) -> pending S (Encoder i k) a.

(** Two threads that can do conflicting things next. *)
Definition data_race (S : sys) : Prop := exists t t' a b, t <> t' /\ pending S t a /\ pending S t' b /\ conflict a b.

(** the encoding threads go on while the calling thread has the same to do *)
Inductive encoders_go (S : sys) : sys -> Prop :=
| eg_none : encoders_go S S
| eg_step S1 S2 : encoders_go S S1 -> smove cfg T nt S1 S2 \/ swake cfg T nt S1 S2 ->
    (forall j, code (cst cfg T nt S2 j) = code (cst cfg T nt S1 j)) -> encoders_go S S2.

(** no first time block was ended by putting row 0 *)
Definition no_empty_block (S : sys) : Prop := forall i, (i < ncol cfg T nt S)%nat -> ~ In (FLong 0) (faults (cst cfg T nt S i)).
End race.
