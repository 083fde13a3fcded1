(** Specification of the packed format, independent of the packer code:
    a list of [w]-bit digits, least significant digit first, is the integer
    [value w l]; [digits w k v] are the [k] lowest [w]-bit digits of [v]. *)
From Verif Require Import Base.
Local Open Scope N_scope.

Fixpoint value (w : N) (l : list N) : N :=
  match l with
  | [] => 0
  | x :: t => x + 2 ^ w * value w t
  end.

Fixpoint digits (w : N) (k : nat) (v : N) : list N :=
  match k with
  | O => []
  | S k' => v mod 2 ^ w :: digits w k' (v / 2 ^ w)
  end.

(** every element of the list is below [2^w] *)
Definition fits (w : N) (l : list N) : Prop := Forall (fun x => x < 2 ^ w) l.

(** bit [m] of the stream formed by the [w]-bit digits [l] *)
Definition stream_bit (w : N) (l : list N) (m : N) : bool :=
  N.testbit (nth (N.to_nat (m / w)) l 0) (m mod w).

(** least number of bytes with at least [nbits] bits *)
Definition least_bytes (nbits bytes : N) : Prop :=
  nbits <= 8 * bytes /\ forall b, nbits <= 8 * b -> bytes <= b.

Definition supported (b : N) : Prop := In b [2; 3; 4; 6; 8; 10; 12; 16].
