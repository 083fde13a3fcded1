(** Outcomes of modelled C++ code, used by every model file. *)
From Coq Require Export List NArith ZArith Arith Lia Bool.
Export ListNotations.

(** [Ok a]: normal result.  [Throw]: a C++ exception left the function.
    [UB]: undefined behaviour (out-of-bounds access, read of an uninitialised
    object, division by zero, float to unsigned conversion out of range,
    formation of an invalid pointer, ...). *)
Inductive res (A : Type) : Type :=
| Ok (a : A)
| Throw
| UB.
Arguments Ok {A} a.
Arguments Throw {A}.
Arguments UB {A}.

Definition bind {A B : Type} (x : res A) (f : A -> res B) : res B :=
  match x with
  | Ok a => f a
  | Throw => Throw
  | UB => UB
  end.

Declare Scope res_scope.
Notation "'do' x <- e1 ; e2" := (bind e1 (fun x => e2))
  (at level 200, x pattern, e1 at level 100, e2 at level 200, right associativity) : res_scope.
Open Scope res_scope.

Definition is_ok {A : Type} (x : res A) : bool :=
  match x with Ok _ => true | _ => false end.

(** Checked array read and write: index out of range is undefined behaviour. *)
Definition rd {A : Type} (l : list A) (i : nat) : res A :=
  match nth_error l i with Some a => Ok a | None => UB end.

Fixpoint upd {A : Type} (l : list A) (i : nat) (a : A) : list A :=
  match l, i with
  | [], _ => []
  | _ :: t, O => a :: t
  | x :: t, S i' => x :: upd t i' a
  end.

Definition wr {A : Type} (l : list A) (i : nat) (a : A) : res (list A) :=
  if (i <? length l)%nat then Ok (upd l i a) else UB.

(** A fold that stops at the first exception or undefined behaviour. *)
Fixpoint foldM {A S : Type} (f : S -> A -> res S) (l : list A) (s : S) : res S :=
  match l with
  | [] => Ok s
  | a :: t => do s' <- f s a; foldM f t s'
  end.

Fixpoint mapM {A B : Type} (f : A -> res B) (l : list A) : res (list B) :=
  match l with
  | [] => Ok []
  | a :: t => do b <- f a; do bs <- mapM f t; Ok (b :: bs)
  end.

(** Checked range read and write (memcpy, std::copy, std::move). *)
Definition rds {A : Type} (l : list A) (i n : nat) : res (list A) :=
  if (i + n <=? length l)%nat then Ok (firstn n (skipn i l)) else UB.

Definition wrs {A : Type} (l : list A) (i : nat) (xs : list A) : res (list A) :=
  if (i + length xs <=? length l)%nat
  then Ok (firstn i l ++ xs ++ skipn (i + length xs) l) else UB.
