(** Specification of a time block buffer: the last entry set for each row. *)
From Verif Require Import Base TimeBlockBuffer.

(** a call of SetData: row, antennas, samples *)
Record set_call (A : Type) := SetCall { c_row : nat; c_a1 : nat; c_a2 : nat; c_data : list A }.
Arguments SetCall {A}. Arguments c_row {A}. Arguments c_a1 {A}. Arguments c_a2 {A}. Arguments c_data {A}.

Definition run_sets {A} (nSamp : nat) (cs : list (set_call A)) (b : tbb A) : res (tbb A) :=
  foldM (fun b c => SetData nSamp b (c_row c) (c_a1 c) (c_a2 c) (c_data c)) cs b.

(** the last call for row [r], if any *)
Fixpoint last_call {A} (cs : list (set_call A)) (r : nat) : option (set_call A) :=
  match cs with
  | [] => None
  | c :: t => match last_call t r with
              | Some c' => Some c'
              | None => if c_row c =? r then Some c else None
              end
  end.
