(** Specification vocabulary: a file of which the part behind the header was changed. *)
From Verif Require Import Base Floats TimeBlockBuffer BytePacker File StMan StManSpec.
From Verif Require Import StochasticEncoder Block Column StoredColumn System SystemSpec.
Local Open Scope N_scope.

(** [mo] is going to open a file that starts with the header of the file of [m]; what follows
    may have been overwritten, cut off or extended in any way.  The columns are the same. *)
Definition damaged (m mo : stman) : Prop :=
  (forall o, fbyte (fil mo) o < 256) /\ hdrSize m <= fsize (fil mo) < 2 ^ 64 /\ (forall o, o < hdrSize m -> fbyte (fil mo) o = fbyte (fil m) o) /\
  Forall2 (fun c c' => co_kind c' = co_kind c /\ co_nPol c' = co_nPol c /\ co_nChan c' = co_nChan c) (columns m) (columns mo).

(** all of block [b] is in the file *)
Definition whole_block (m mo : stman) (b : N) : Prop := hdrSize m + blockSize m * (b + 1) <= fsize (fil mo).

(** the bytes of block [b] of column [i] are those of the file of [m] *)
Definition intact (m mo : stman) (i : nat) (b : N) : Prop :=
  forall col o, nth_error (columns m) i = Some col -> fst (region m b col) <= o < fst (region m b col) + snd (region m b col) -> fbyte (fil mo) o = fbyte (fil m) o.
